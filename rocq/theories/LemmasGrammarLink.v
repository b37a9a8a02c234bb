(** From lists of tokens to the text: the parser on the tape does what it does on
    the list of the tokens of the text. *)

From Verif Require Import ModelParser SpecParser SpecTokens SpecIdent LemmasBase LemmasIdent LemmasScanProps LemmasListRun LemmasGrammarStmt LemmasGrammarDeref LemmasParserProps.

Section Link.
  Context {X : FloatLib} {L : CaseLib} {U : RuneLib} {B : BufLib} {P : PrintLib} (HU : RuneLib_scan U).

  (** ** Tables of identifiers *)

  Definition grown (t t' : idtable) : Prop := real t' /\ incl (entries t) (entries t').

  Lemma real_ok t : real t -> idt_ok t.
  Proof. intros [ths H]. now apply idreach_ok in H. Qed.
  Lemma grown_refl t : real t -> grown t t.
  Proof. intros H. split; [exact H|apply incl_refl]. Qed.
  Lemma grown_trans a b c : grown a b -> grown b c -> grown a c.
  Proof. intros [A1 A2] [B1 B2]. split; [exact B1|eapply incl_tran; eassumption]. Qed.

  Lemma ID_grown t n q : real t -> grown t (fst (ID t n q)).
  Proof.
    intros H. destruct (ID t n q) as [t' i] eqn:E. cbn [fst]. split.
    - destruct H as [ths H]. destruct (ID_sequential _ _ _ _ _ _ H E) as (ths' & H' & _). now exists ths'.
    - destruct (means_total n q) as [m M]. destruct (ID_spec _ _ _ _ _ _ (real_ok _ H) M E) as (_ & K & _). intros [m' i']. apply K.
  Qed.
  Lemma ID_entry t n q m : real t -> means n q m -> In (m, snd (ID t n q)) (entries (fst (ID t n q))).
  Proof.
    intros H M. destruct (ID t n q) as [t' i] eqn:E. cbn [fst snd]. now destruct (ID_spec _ _ _ _ _ _ (real_ok _ H) M E) as (_ & _ & K & _).
  Qed.
  Lemma ID_in T n q m i : real T -> means n q m -> In (m, i) (entries T) -> ID T n q = (T, i).
  Proof.
    intros H M K. destruct (ID T n q) as [T' j] eqn:E. destruct (ID_spec _ _ _ _ _ _ (real_ok _ H) M E) as (K1 & K2 & K3 & K4).
    rewrite (K4 (in_map fst _ _ K)) in *. f_equal. eapply entries_id_unique; eauto using real_ok.
  Qed.
  Lemma ID_same t T n q : real t -> grown (fst (ID t n q)) T -> ID T n q = (T, snd (ID t n q)).
  Proof.
    intros H [G1 G2]. destruct (means_total n q) as [m M]. apply (ID_in T n q m); [exact G1|exact M|]. apply G2, ID_entry; assumption.
  Qed.
  Lemma grown_later t T : real t -> grown t T -> later t T.
  Proof. intros H G n q K. apply ID_same; [exact H|]. unfold knows in K. now rewrite K. Qed.
  Lemma ID_knows t n q : real t -> knows (fst (ID t n q)) n q.
  Proof.
    intros H. unfold knows. rewrite (ID_same t _ n q H); [reflexivity|]. apply grown_refl, ID_grown, H.
  Qed.
  Lemma grown_knows t T n q : real t -> grown t T -> knows t n q -> knows T n q.
  Proof. intros H G K. unfold knows. now rewrite (grown_later t T H G n q K). Qed.
  Lemma name_same t T m i : real t -> grown t T -> In (m, i) (entries t) -> idString t i = idString T i.
  Proof.
    intros H [G1 G2] K. rewrite (idString_entry t m i), (idString_entry T m i); auto using real_ok.
  Qed.

  (** ** Scanning *)

  Lemma Scan_grown input s c s' c' : scanning input s -> real (s_ids s) -> Scan s c = Some (s', c') -> grown (s_ids s) (s_ids s').
  Proof.
    intros H R E. destruct (sound HU _ _ _ _ _ H E) as [(_ & -> & _)|[(_ & -> & _)|(g & w & f & v & _ & _ & _ & Hh)]]; try (now apply grown_refl).
    destruct v; cbn [holds] in Hh; try (destruct Hh as [_ ->]; now apply grown_refl); try (destruct Hh as (_ & _ & ->); now apply grown_refl).
    - destruct Hh as (_ & -> & _). now apply ID_grown.
    - destruct Hh as (_ & _ & _ & ->); now apply grown_refl.
  Qed.

  Lemma set_ids_ids s t : s_ids (set_ids s t) = t.
  Proof. reflexivity. Qed.
  Lemma rest_set_ids s t : rest (set_ids s t) = rest s.
  Proof. reflexivity. Qed.
  Lemma reader_ids s : s_ids (RuneReader s) = s_ids s.
  Proof. unfold RuneReader. repeat match goal with |- context[match ?x with _ => _ end] => destruct x end; reflexivity. Qed.

  Lemma run_grown {A} input (g : act A) : forall t, scanning input (t_scanner t) -> real (s_ids (t_scanner t)) ->
    match t_run g t with
    | Done _ t' | Failed t' | Crashed t' => grown (s_ids (t_scanner t)) (s_ids (t_scanner t'))
    | Stuck => True
    end.
  Proof.
    induction g as [x| | | |kk IH|kk IH|kk IH|s kk IH|i kk IH|l kk IH|kk IH]; intros t H R; cbn [t_run]; try (now apply grown_refl); try exact Logic.I.
    - unfold t_next. destruct (t_ahead t) as [|c ahead].
      + destruct (Scan (t_scanner t) _) as [[s c]|] eqn:E; [|exact Logic.I].
        pose proof (Scan_grown _ _ _ _ _ H R E) as G.
        assert (K : forall k, match t_run (kk k) {| t_past := c :: t_past t; t_ahead := []; t_scanner := s |} with
            | Done _ t' | Failed t' | Crashed t' => grown (s_ids (t_scanner t)) (s_ids (t_scanner t')) | Stuck => True end).
        { intros k. pose proof (IH k {| t_past := c :: t_past t; t_ahead := []; t_scanner := s |}) as K. cbn [t_scanner] in K. specialize (K (sc_scan _ _ _ _ _ H E) (proj1 G)).
          destruct (t_run _ _); try exact Logic.I; eapply grown_trans; eassumption. }
        destruct (tok_of c) as [| |[|]| | | | | | | |]; try apply K. exact G.
      + apply (IH _ {| t_past := c :: t_past t; t_ahead := ahead; t_scanner := t_scanner t |}); assumption.
    - unfold t_back. destruct (t_past t) as [|c past]; [now apply grown_refl|].
      apply (IH {| t_past := past; t_ahead := c :: t_ahead t; t_scanner := t_scanner t |}); assumption.
    - now apply IH.
    - destruct (ID (s_ids (t_scanner t)) s false) as [ids j] eqn:E. pose proof (ID_grown _ s false R) as G. rewrite E in G. cbn [fst] in G.
      pose proof (IH j (t_set t (set_ids (t_scanner t) ids))) as K. cbn [t_set t_scanner] in K. rewrite set_ids_ids in K. specialize (K (sc_ids _ _ _ H) (proj1 G)).
      destruct (t_run _ _); try exact Logic.I; eapply grown_trans; eassumption.
    - now apply IH.
    - now apply IH.
    - pose proof (IH (s_line (RuneReader (t_scanner t))) (t_set t (RuneReader (t_scanner t)))) as K. cbn [t_set t_scanner] in K. rewrite reader_ids in K. exact (K (sc_reader _ _ H) R).
  Qed.

  (** ** In lockstep *)

  Section Lock.
    Variables (input : list Z) (T : idtable) (vals : list tokval) (left : list Z) (base : list sctx).
    Hypothesis HT : real T.

    (** The tokens still to be scanned. *)
    Inductive unread : list Z -> list tokval -> list tok -> Prop :=
    | un_none : unread left [] []
    | un_tok g w v f l k vs ts : gap g -> lexeme w v f l -> token_in T v k -> unread l vs ts -> unread (g ++ w ++ f) (v :: vs) (k :: ts)
    | un_eof g e : gap g -> no_token e -> left = [] -> unread (g ++ e) [] [KEOF].

    Definition named (t : idtable) (k : tok) : Prop := match k with KIdent i => exists m, In (m, i) (entries t) | _ => Logic.True end.

    Record lock (past ahead : list tok) (t : tape) (pc : list sctx) (vs : list tokval) (ts : list tok) : Prop := {
      lk_past : t_past t = pc ++ base;
      lk_toks : map tok_of pc = past;
      lk_ahead : ahead = map tok_of (t_ahead t) ++ ts;
      lk_unread : unread (rest (t_scanner t)) vs ts;
      lk_scanning : scanning input (t_scanner t);
      lk_real : real (s_ids (t_scanner t));
      lk_named : Forall (named (s_ids (t_scanner t))) (past ++ map tok_of (t_ahead t));
      lk_known : forall n q, In (TName n q) vals -> knows (s_ids (t_scanner t)) n q \/ In (TName n q) vs
    }.
    Definition locked past ahead t : Prop := exists pc vs ts, lock past ahead t pc vs ts.

    Lemma named_grown t t' l : incl (entries t) (entries t') -> Forall (named t) l -> Forall (named t') l.
    Proof.
      intros G. apply Forall_impl. intros [| | |i|i|?|?|?|?|?|?]; cbn; try exact (fun H => H). intros [m H]. exists m. now apply G.
    Qed.

    (** The token scanned is the one of the list. *)
    Lemma token_held w v f l t s c k : real t -> lexeme w v f l -> holds t v s c -> grown (s_ids s) T -> token_in T v k ->
      tok_of c = k /\ named (s_ids s) k.
    Proof.
      intros R Hx Hh G Hk. destruct Hk as [|n i E N|n i E N|n i E|b|z|p|z|r]; cbn [holds] in Hh; unfold tok_of.
      - destruct Hh as [-> _]. now split.
      - destruct Hh as (H1 & H2 & H3). rewrite H2 in G. rewrite (ID_same t T n false R G) in E. injection E as <-. rewrite <- H1 in N. cbn [negb andb] in H3.
        apply Z.ltb_lt in N. rewrite N in H3. rewrite H3, H1. now split.
      - destruct Hh as (H1 & H2 & H3). rewrite H2 in *. rewrite (ID_same t T n false R G) in E. injection E as <-. rewrite <- H1 in N. cbn [negb andb] in H3.
        apply Z.ltb_ge in N. rewrite N in H3. rewrite H3, H1. split; [reflexivity|]. destruct (means_total n false) as [m M]. exists m. now apply ID_entry.
      - destruct Hh as (H1 & H2 & H3). rewrite H2 in *. rewrite (ID_same t T n true R G) in E. injection E as <-. cbn [negb andb] in H3.
        rewrite H3, H1. split; [reflexivity|]. destruct (means_total n true) as [m M]. exists m. now apply ID_entry.
      - destruct Hh as (-> & -> & _). now split.
      - destruct Hh as (-> & -> & _). now split.
      - destruct Hh as (-> & -> & _). now split.
      - destruct Hh as (-> & -> & _). now split.
      - destruct Hh as [-> _]. split; [|exact Logic.I].
        inversion Hx; subst; match goal with H : In _ _ |- _ => cbn in H; repeat destruct H as [H|H]; try contradiction; try (injection H as <- <- <-); subst; reflexivity | H : op_alone _ _ |- _ => destruct H as [H _]; cbn in H; repeat destruct H as [H|H]; try contradiction; subst; reflexivity end.
    Qed.

    Definition ends {A} (o : outcome_ tape A) : Prop :=
      match o with Done _ t | Failed t | Crashed t => grown (s_ids (t_scanner t)) T | Stuck => False end.
    Lemma ends_grown {A} (g : act A) t : scanning input (t_scanner t) -> real (s_ids (t_scanner t)) -> ends (t_run g t) -> grown (s_ids (t_scanner t)) T.
    Proof.
      intros H R E. pose proof (run_grown input g t H R) as K. destruct (t_run g t); try contradiction; eapply grown_trans; eassumption.
    Qed.

    Lemma lockstep {A} (g : act A) : forall past ahead t a past' ahead', locked past ahead t -> ends (t_run g t) ->
      lrun (number T) (idString T) g past ahead = Some (a, past', ahead') ->
      exists t', t_run g t = Done a t' /\ locked past' ahead' t'.
    Proof.
      induction g as [x| | | |kk IH|kk IH|kk IH|s kk IH|i kk IH|l kk IH|kk IH]; intros past ahead t a past' ahead' (pc & vs & ts & K) E; cbn [lrun]; try discriminate.
      - intros [= <- <- <-]. exists t. split; [reflexivity|]. now exists pc, vs, ts.
      - (* scan *) destruct K as [K1 K2 K3 K4 K5 K6 K7 K8]. destruct ahead as [|k ahead]; [discriminate|]. intros R. cbn [t_run] in *. unfold t_next in *.
        destruct (t_ahead t) as [|c ac] eqn:EA.
        + cbn [map app] in K3, K7. subst ts. inversion K4 as [|g w v f l k' vs' ts' G Hx Hk Hu EQ1|g e G Hn Hl EQ1]; subst.
          * destruct (complete HU _ _ (nth 2 (t_past t) c_zero) _ _ _ _ _ K5 (eq_sym EQ1) G Hx) as (s' & c' & ES & R' & Hh). rewrite ES in *.
            assert (NE : match tok_of c' with KError true => true | _ => false end = false).
            { destruct (lexeme_holds_token _ _ _ _ _ _ _ Hx Hh) as (_ & N3 & _). unfold tok_of. apply Z.eqb_neq in N3. cbv zeta. change tError with (-3). rewrite N3.
              destruct (_ =? tEOF); [reflexivity|]. destruct (_ =? tEndOfStatement); [reflexivity|].
              repeat match goal with |- context [if ?b then _ else _] => destruct b; try reflexivity end. }
            rewrite NE in *. set (t1 := {| t_past := c' :: t_past t; t_ahead := []; t_scanner := s' |}) in *.
            pose proof (Scan_grown _ _ _ _ _ K5 K6 ES) as GS. pose proof (sc_scan _ _ _ _ _ K5 ES) as S'.
            pose proof (ends_grown (kk (t_tok t1)) t1 S' (proj1 GS) E) as GT. cbn [t1 t_scanner] in GT.
            destruct (token_held _ _ _ _ _ _ _ _ K6 Hx Hh GT Hk) as [HK HN]. change (t_tok t1) with (tok_of c') in *. rewrite HK in *.
            apply (IH k _ _ _ _ _ _) with (2 := E) (3 := R). exists (c' :: pc), vs', ahead. constructor; cbn [t1 t_past t_ahead t_scanner map app]; auto.
            -- now rewrite K1.
            -- now rewrite HK.
            -- now rewrite R'.
            -- exact (proj1 GS).
            -- rewrite app_nil_r in *. constructor; [exact HN|]. eapply named_grown; [exact (proj2 GS)|exact K7].
            -- intros n q Hin. destruct (K8 n q Hin) as [Kn|[->|Kn]]; [left; now apply (grown_knows _ _ n q K6 GS)| |now right].
               left. cbn [holds] in Hh. destruct Hh as (_ & -> & _). now apply ID_knows.
          * destruct (dropped HU _ _ (nth 2 (t_past t) c_zero) _ _ K5 (eq_sym EQ1) G Hn) as (s' & ES & R' & I'). rewrite ES in *.
            assert (HK : tok_of (set_token (nth 2 (t_past t) c_zero) (-1)) = KEOF) by reflexivity. rewrite HK in *.
            set (t1 := {| t_past := set_token (nth 2 (t_past t) c_zero) (-1) :: t_past t; t_ahead := []; t_scanner := s' |}) in *.
            change (t_tok t1) with KEOF in *.
            apply (IH KEOF _ _ _ _ _ _) with (2 := E) (3 := R). exists (set_token (nth 2 (t_past t) c_zero) (-1) :: pc), [], []. constructor; cbn [t1 t_past t_ahead t_scanner map app]; auto.
            -- now rewrite K1.
            -- rewrite R'. rewrite <- Hl at 1. constructor.
            -- exact (sc_scan _ _ _ _ _ K5 ES).
            -- now rewrite I'.
            -- rewrite app_nil_r in *. rewrite I'. constructor; [exact Logic.I|exact K7].
            -- rewrite I'. exact K8.
        + cbn [map app] in K3, K7. injection K3 as -> K3. set (t1 := {| t_past := c :: t_past t; t_ahead := ac; t_scanner := t_scanner t |}) in *.
          change (t_tok t1) with (tok_of c) in *. apply (IH _ _ _ _ _ _ _) with (2 := E) (3 := R). exists (c :: pc), vs, ts. constructor; cbn [t1 t_past t_ahead t_scanner map app]; auto.
          * now rewrite K1.
          * now rewrite K2.
          * apply Forall_app in K7 as [K7 K7']. inversion K7'; subst. constructor; [assumption|]. apply Forall_app. now split.
      - (* un-read *) destruct K as [K1 K2 K3 K4 K5 K6 K7 K8]. destruct past as [|k past]; [discriminate|]. intros R. cbn [t_run] in *. unfold t_back in *.
        destruct pc as [|c pc]; [discriminate|]. cbn [map] in K2. injection K2 as <- <-. rewrite K1 in *. cbn [app] in *.
        apply (IH _ _ _ _ _ _) with (2 := E) (3 := R). exists pc, vs, ts. constructor; cbn [t_past t_ahead t_scanner map app]; auto.
        + now rewrite K3.
        + inversion K7; subst. apply Forall_app in H2 as [H2 H2']. apply Forall_app. split; [exact H2|]. now constructor.
      - (* the current token *) destruct past as [|k past]; [discriminate|]. intros R. cbn [t_run] in *. pose proof (lk_toks _ _ _ _ _ _ K) as K2. pose proof (lk_past _ _ _ _ _ _ K) as K1.
        destruct pc as [|c pc]; [discriminate|]. cbn [map] in K2. injection K2 as <- K2. unfold t_tok in *. rewrite K1 in *. cbn [app hd] in *.
        apply (IH _ _ _ _ _ _ _) with (2 := E) (3 := R). now exists (c :: pc), vs, ts.
      - (* registering a name *) intros R. cbn [t_run] in *. destruct K as [K1 K2 K3 K4 K5 K6 K7 K8].
        pose proof (ID_grown _ s false K6) as G. pose proof (ID_same (s_ids (t_scanner t)) T s false K6) as SM.
        destruct (ID (s_ids (t_scanner t)) s false) as [ids j] eqn:EI. cbn [fst snd] in *.
        set (t1 := t_set t (set_ids (t_scanner t) ids)) in *.
        pose proof (ends_grown (kk j) t1 (sc_ids _ _ _ K5) (proj1 G) E) as GT. cbn [t1 t_set t_scanner] in GT. rewrite set_ids_ids in GT. specialize (SM GT).
        unfold number in R. rewrite SM in R. cbn [snd] in R. apply (IH _ _ _ _ _ _ _) with (2 := E) (3 := R). exists pc, vs, ts.
        constructor; cbn [t1 t_set t_past t_ahead t_scanner]; auto.
        + now constructor.
        + rewrite set_ids_ids. apply G.
        + rewrite set_ids_ids. eapply named_grown; [exact (proj2 G)|exact K7].
        + rewrite set_ids_ids. intros n q Hin. destruct (K8 n q Hin) as [Kn|Kn]; [left; now apply (grown_knows _ _ n q K6 G)|now right].
      - (* the text of a name *) destruct (existsb (is_name i) past) eqn:EX; [|discriminate]. intros R. cbn [t_run] in *. destruct K as [K1 K2 K3 K4 K5 K6 K7 K8].
        pose proof (ends_grown (kk _) t K5 K6 E) as GT.
        apply existsb_exists in EX. destruct EX as (k & Hin & Hk). destruct k as [| | |j|?|?|?|?|?|?|?]; try discriminate. cbn in Hk. apply Z.eqb_eq in Hk. subst j.
        apply Forall_app in K7 as [K7 K7']. assert (N : named (s_ids (t_scanner t)) (KIdent i)) by (rewrite Forall_forall in K7; exact (K7 _ Hin)). destruct N as [m N].
        rewrite (name_same _ _ _ _ K6 GT N) in *. apply (IH _ _ _ _ _ _ _) with (2 := E) (3 := R). exists pc, vs, ts. constructor; auto. apply Forall_app. now split.
    Qed.
  End Lock.

  (** ** The text *)

  Lemma lrun_ret {A} i nm (g : act A) : forall p a, lrun i nm (abind g ARet) p a = lrun i nm g p a.
  Proof.
    induction g as [x| | | |kk IH|kk IH|kk IH|s kk IH|j kk IH|l kk IH|kk IH]; intros p a; cbn [abind lrun]; try reflexivity.
    - destruct a; [reflexivity|apply IH].
    - destruct p; [reflexivity|apply IH].
    - destruct p; [reflexivity|apply IH].
    - apply IH.
    - destruct (existsb (is_name j) p); [apply IH|reflexivity].
  Qed.

  Definition register (vs : list tokval) (t : idtable) : idtable :=
    fold_left (fun t v => match v with TName n q => fst (ID t n q) | _ => t end) vs t.
  Lemma register_spec vs : forall t, real t -> grown t (register vs t) /\ (forall n q, In (TName n q) vs -> knows (register vs t) n q).
  Proof.
    induction vs as [|v vs IH]; intros t R; [split; [now apply grown_refl|now intros]|]. cbn [register fold_left]. fold (register vs).
    assert (K : real match v with TName n q => fst (ID t n q) | _ => t end /\ grown t match v with TName n q => fst (ID t n q) | _ => t end).
    { destruct v; try (split; [exact R|now apply grown_refl]). split; [|now apply ID_grown]. now apply (ID_grown t s quoted R). }
    destruct K as [K1 K2]. destruct (IH _ K1) as [I1 I2]. split; [eapply grown_trans; eassumption|].
    intros n q [->|H]; [|now apply I2]. apply (grown_knows _ _ n q K1 I1). now apply ID_knows.
  Qed.
  Lemma register_known vs t : (forall n q, In (TName n q) vs -> knows t n q) -> register vs t = t.
  Proof.
    induction vs as [|v vs IH]; intros K; [reflexivity|]. cbn [register fold_left]. fold (register vs).
    assert (E : match v with TName n q => fst (ID t n q) | _ => t end = t) by (destruct v; try reflexivity; apply (K s quoted); now left).
    rewrite E. apply IH. intros n q H. apply K. now right.
  Qed.

  Lemma tokens_unread T left text vs l vs2 ts2 : tokens text vs l -> unread T left l vs2 ts2 -> forall ts, Forall2 (token_in T) vs ts ->
    unread T left text (vs ++ vs2) (ts ++ ts2).
  Proof.
    induction 1 as [l|g w v f l vs l' G Hx Ht IH]; intros K ts F; inversion F; subst; [exact K|]. cbn [app]. econstructor; eauto.
  Qed.
  Lemma statement_unread T text vs left ts : statement_text text vs left -> Forall2 (token_in T) vs ts ->
    exists k vs', (k = KEnd \/ k = KEOF) /\ unread T left text vs' (ts ++ [k]) /\ (forall n q, In (TName n q) vs <-> In (TName n q) vs').
  Proof.
    intros [t v l H|t v g e H G N] F.
    - exists KEnd, (v ++ [TEnd]). split; [now left|]. split.
      + rewrite <- (app_nil_r (v ++ [TEnd])), <- (app_nil_r (ts ++ [KEnd])). eapply tokens_unread; [exact H|constructor|]. apply Forall2_app; [exact F|]. constructor; [constructor|constructor].
      + intros n q. rewrite in_app_iff. split; [auto|]. intros [K|[K|[]]]; [exact K|discriminate].
    - exists KEOF, v. split; [now right|]. split; [|tauto]. rewrite <- (app_nil_r v). eapply tokens_unread; [exact H| |exact F]. now constructor.
  Qed.
  Lemma unread_length T left text vs ts : unread T left text vs ts -> (length ts <= 1 + length text)%nat.
  Proof.
    induction 1 as [|g w v f l k vs ts G Hx Hk Hu IH|g e G N]; cbn; try lia. rewrite !app_length.
    assert (W : w <> []) by (destruct Hx; try discriminate; match goal with H : sign_text _ _ |- _ => destruct H end; try discriminate; match goal with |- ?x <> [] => destruct ds; [contradiction|discriminate] | |- [] ++ ?x ++ _ <> [] => destruct x; [contradiction|discriminate] end).
    assert (L' : (length l <= length f)%nat).
    { destruct Hx; try lia; match goal with H : quote_ends _ _ |- _ => destruct H as (sp & -> & _); rewrite app_length; lia end. }
    destruct w; [contradiction|]. cbn. lia.
  Qed.

  Lemma says_nonempty T s ts : says (number T) (idString T) s ts -> ts <> [].
  Proof. destruct 1; discriminate. Qed.

  Lemma first_token text vs left : statement_text text vs left -> vs = [] \/
    exists g w v f l vs', text = g ++ w ++ f /\ vs = v :: vs' /\ gap g /\ lexeme w v f l.
  Proof.
    intros [t v l H|t v g e H G N].
    - destruct v as [|v vs']; [now left|right]. cbn [app] in H. inversion H; subst. do 6 eexists. eauto.
    - destruct v as [|v vs']; [now left|right]. inversion H; subst. do 6 eexists. eauto.
  Qed.

  Lemma not_error w v f l t s c : lexeme w v f l -> holds t v s c -> tok_of c <> KEOF /\ forall b, tok_of c <> KError b.
  Proof.
    intros Hx Hh. destruct (lexeme_holds_token _ _ _ _ _ _ _ Hx Hh) as (N1 & N3 & _). unfold tok_of. apply Z.eqb_neq in N1, N3. cbv zeta. change tEOF with (-1). change tError with (-3). rewrite N1, N3.
    split; intros; repeat match goal with |- context [if ?b then _ else _] => destruct b end; discriminate.
  Qed.

  Lemma parse_text_step input p t vs left : in_step input p t -> p_unscanned p = 0%nat -> p_failed p = false -> real (s_ids (p_scanner p)) ->
    statement_text (rest (p_scanner p)) vs left ->
    exists T, real T /\ later (s_ids (p_scanner p)) T /\ (forall n q, In (TName n q) vs -> knows T n q) /\
      forall s, text_says T vs s ->
      exists p', Parse p = PStmt (Some s) p' /\ s_ids (p_scanner p') = T /\ rest (p_scanner p') = left /\ p_unscanned p' = 0%nat /\ p_failed p' = false.
  Proof.
    intros HS Hu Hf R ST. pose proof (parse_same HU _ _ _ HS) as SM. pose proof HS as ((O1 & O2 & O3 & _) & S1 & _).
    rewrite O1 in *. rewrite O2 in Hu. apply length_zero_iff_nil in Hu. rewrite Hf in SM.
    destruct (first_token _ _ _ ST) as [->|(g & w & v & f & l & vs' & ET & -> & G & Hx)].
    { exists (s_ids (t_scanner t)). split; [exact R|]. split; [apply grown_later; [exact R|now apply grown_refl]|]. split; [now intros|].
      intros s (ts & F & Sy). inversion F; subst. now apply says_nonempty in Sy. }
    destruct (complete HU _ _ (nth 2 (t_past t) c_zero) _ _ _ _ _ S1 ET G Hx) as (s1 & c & ES & R1 & Hh). destruct (not_error _ _ _ _ _ _ _ Hx Hh) as [NEOF NE].
    set (t1 := {| t_past := t_past t; t_ahead := [c]; t_scanner := s1 |}).
    assert (EP : t_parse false t = match t_run (parseWhole (t_fuel t1)) t1 with
                    | Done s t => TStmt s t | Failed t => TFailed t | Crashed t => TCrash t | Stuck => TStuck end).
    { unfold t_parse, t_next. rewrite Hu, ES. destruct (match tok_of c with KError true => true | _ => false end) eqn:EE.
      { destruct (tok_of c) as [| |[|]| | | | | | | |]; try discriminate. now contradiction (NE true). }
      unfold t_tok. cbn [t_past hd t_back t_ahead t_scanner]. fold t1. destruct (tok_of c); [contradiction|reflexivity..]. }
    rewrite EP in SM. clear EP. pose proof (Scan_grown _ _ _ _ _ S1 R ES) as GS. pose proof (sc_scan _ _ _ _ _ S1 ES) as S1'.
    pose proof (run_grown input (parseWhole (t_fuel t1)) t1 S1' (proj1 GS)) as RG.
    assert (HO : exists T0, grown (s_ids s1) T0 /\ (forall T, grown T0 T -> ends T (t_run (parseWhole (t_fuel t1)) t1)) /\
        forall o t', t_run (parseWhole (t_fuel t1)) t1 = Done o t' -> T0 = s_ids (t_scanner t')).
    { destruct (t_run (parseWhole (t_fuel t1)) t1) as [o t'|t'|t'|].
      - exists (s_ids (t_scanner t')). split; [exact RG|]. split; [intros T H; exact H|]. now intros o' t'' [= <- <-].
      - exists (s_ids (t_scanner t')). split; [exact RG|]. split; [intros T H; exact H|discriminate].
      - exists (s_ids (t_scanner t')). split; [exact RG|]. split; [intros T H; exact H|discriminate].
      - destruct (Parse p); contradiction. }
    destruct HO as (T0 & G0 & HE & HD). destruct (register_spec (v :: vs') T0 (proj1 G0)) as [GR KR]. set (T := register (v :: vs') T0) in *.
    assert (GT : grown (s_ids s1) T) by (eapply grown_trans; eassumption). specialize (HE T GR).
    exists T. split; [apply GR|]. split; [apply grown_later; [exact R|eapply grown_trans; eassumption]|]. split; [exact KR|].
    intros s (ts & F & Sy). destruct (statement_unread T _ _ _ _ ST F) as (k & vs2 & Hk & UN & IV).
    inversion F as [|? k1 ? ts1 F1 F2]; subst. cbn [app] in UN. inversion UN as [|g' w' v' f' l' k' vs'' ts' G' Hx' Hk' Hu' EQ|g' e' G' N' Hl' EQ]; subst.
    2:{ destruct ts1; discriminate. }
    destruct (token_held T _ _ _ _ _ _ _ _ R Hx Hh GT F1) as [HK HN].
    (* the token read is the first one of the list *)
    destruct (complete HU _ _ (nth 2 (t_past t) c_zero) _ _ _ _ _ S1 (eq_sym EQ) G' Hx') as (s2 & c2 & ES2 & R2 & Hh2). rewrite ES in ES2. injection ES2 as <- <-.
    destruct (lockstep input T (v' :: vs'') left (t_past t) (parseWhole (t_fuel t1)) [] (k1 :: ts1 ++ [k]) t1 (Some s) (k :: rev (k1 :: ts1)) []) as (t' & ER & (pc & vs3 & ts3 & LK)).
    - exists [], vs'', (ts1 ++ [k]). constructor; cbn [t1 t_past t_ahead t_scanner map app].
      + reflexivity.
      + reflexivity.
      + now rewrite HK.
      + now rewrite R2.
      + exact S1'.
      + apply GS.
      + rewrite HK. constructor; [exact HN|constructor].
      + intros n q [->|H]; [left|now right]. cbn [holds] in Hh2. destruct Hh2 as (_ & -> & _). now apply ID_knows.
    - exact HE.
    - rewrite <- (app_nil_r (rev (k1 :: ts1))). apply (lrun_statement (number T) (idString T) s (k1 :: ts1) (t_fuel t1) k [] [] Sy); [|exact Hk].
      apply unread_length in Hu'. rewrite app_length in Hu'. cbn [length] in *. pose proof (LemmasScanAll.rest_length s1) as RL. rewrite R2 in RL. unfold t_fuel. cbn [t1 t_scanner t_ahead length]. lia.
    - rewrite ER in SM. destruct (Parse p) as [o p'|p'|p'| |]; try contradiction. destruct SM as (-> & HS' & Hf').
      exists p'. pose proof HS' as ((O1' & O2' & _) & _). destruct LK as [_ _ L3 L4 _ L6 _ L8].
      destruct (t_ahead t') eqn:EA; [|discriminate]. cbn [map app] in L3. subst ts3. inversion L4; subst. split; [|split; [|split; [|split]]].
      + cbn [option_map]. f_equal. f_equal. eapply deref_says; exact Sy.
      + rewrite O1'. rewrite <- (HD _ _ ER). symmetry. apply register_known. intros n q Hin. rewrite (HD _ _ ER). apply IV in Hin. destruct (L8 n q Hin) as [K|[]]. exact K.
      + now rewrite O1'.
      + now rewrite O2'.
      + exact Hf'.
  Qed.

  Lemma parse_text input p vs left : parsing input p -> p_unscanned p = 0%nat -> p_failed p = false -> real (s_ids (p_scanner p)) ->
    statement_text (rest (p_scanner p)) vs left ->
    exists T, real T /\ later (s_ids (p_scanner p)) T /\ (forall n q, In (TName n q) vs -> knows T n q) /\
      forall s, text_says T vs s ->
      exists p', Parse p = PStmt (Some s) p' /\ s_ids (p_scanner p') = T /\ rest (p_scanner p') = left /\ p_unscanned p' = 0%nat /\ p_failed p' = false.
  Proof. intros HP. destruct (parsing_in_step HU _ _ HP) as [t HS]. exact (parse_text_step input p t vs left HS). Qed.

  Lemma expr_text input p vs left : parsing input p -> p_unscanned p = 0%nat -> real (s_ids (p_scanner p)) ->
    statement_text (rest (p_scanner p)) vs left ->
    exists T, real T /\ later (s_ids (p_scanner p)) T /\ (forall n q, In (TName n q) vs -> knows T n q) /\
      forall e, text_is T vs e -> exists p', ParseExpr p = Done e p' /\ s_ids (p_scanner p') = T.
  Proof.
    intros HP Hu R ST. destruct (parsing_in_step HU _ _ HP) as [t HS]. pose proof (proj1 (in_step_st _ _ _) HS) as [HS1 HS2].
    pose proof (ParseExpr_sound HU input true (no_bad input) p t HS1 HS2) as SM. pose proof HS as ((O1 & O2 & O3 & _) & S1 & _).
    rewrite O1 in *. rewrite O2 in Hu. apply length_zero_iff_nil in Hu.
    pose proof (run_grown input (parseExpr (t_fuel t)) t S1 R) as RG.
    assert (HO : exists T0, grown (s_ids (t_scanner t)) T0 /\ (forall T, grown T0 T -> ends T (t_run (parseExpr (t_fuel t)) t)) /\
        forall o t', t_run (parseExpr (t_fuel t)) t = Done o t' -> T0 = s_ids (t_scanner t')).
    { destruct (t_run (parseExpr (t_fuel t)) t) as [o t'|t'|t'|].
      - exists (s_ids (t_scanner t')). split; [exact RG|]. split; [intros T H; exact H|]. now intros o' t'' [= <- <-].
      - exists (s_ids (t_scanner t')). split; [exact RG|]. split; [intros T H; exact H|discriminate].
      - exists (s_ids (t_scanner t')). split; [exact RG|]. split; [intros T H; exact H|discriminate].
      - destruct (ParseExpr p); contradiction. }
    destruct HO as (T0 & G0 & HE & HD). destruct (register_spec vs T0 (proj1 G0)) as [GR KR]. set (T := register vs T0) in *.
    specialize (HE T GR). exists T. split; [apply GR|]. split; [apply grown_later; [exact R|eapply grown_trans; eassumption]|]. split; [exact KR|].
    intros e (e0 & (ts & F & Sy) & Ht & Hw). pose proof (whole_intro (number T) (idString T) e0 e ts Sy Ht Hw) as Wh.
    destruct (statement_unread T _ _ _ _ ST F) as (k & vs2 & Hk & UN & IV).
    destruct (lockstep input T vs2 left (t_past t) (parseExpr (t_fuel t)) [] (ts ++ [k]) t e (rev ts) [k]) as (t' & ER & (pc & vs3 & ts3 & LK)).
    - exists [], vs2, (ts ++ [k]). constructor; try (rewrite Hu; cbn [map app]); auto.
    - exact HE.
    - pose proof (R_whole (number T) (idString T) e ts Wh (t_fuel t)) as RW.
      rewrite <- (app_nil_r (rev ts)).
      assert (FU : (length ts < t_fuel t)%nat). { apply unread_length in UN. rewrite app_length in UN. cbn [length] in UN. pose proof (LemmasScanAll.rest_length (t_scanner t)) as RL. unfold t_fuel. lia. }
      specialize (RW FU expr ARet [] [k]). rewrite <- lrun_ret. apply RW. destruct Hk as [->| ->]; repeat split; discriminate.
    - rewrite ER in SM. destruct (ParseExpr p) as [e' p'|p'|p'|]; try contradiction. destruct SM as (-> & [(O1' & _) _] & _).
      exists p'. destruct LK as [_ _ L3 L4 _ L6 _ L8]. split; [f_equal; eapply deref_whole; exact Wh|].
      rewrite O1'. rewrite <- (HD _ _ ER). symmetry. apply register_known. intros n q Hin. rewrite (HD _ _ ER). apply IV in Hin. destruct (L8 n q Hin) as [K|K]; [exact K|].
      exfalso. assert (KK : ts3 = [] \/ ts3 = [k]). { destruct (t_ahead t') as [|? [|? ?]]; cbn [map app] in L3; [now right|left; now injection L3|discriminate]. }
      destruct KK as [->| ->]; inversion L4; subst; try contradiction.
      destruct K as [->|K]; [|match goal with H : unread _ _ _ _ [] |- _ => inversion H; subst; contradiction end].
      match goal with H : token_in _ (TName _ _) _ |- _ => inversion H; subst; destruct Hk; discriminate end.
  Qed.

  Lemma reads_right T vs e : text_reads T vs e -> read_right e.
  Proof. intros (ts & _ & H). exact (proj1 (proj1 (proj2 (LemmasGrammarExpr.reads_grammar (number T) (idString T))) e ts H)). Qed.

  Lemma text_grouped T vs e0 : text_reads T vs e0 -> exists e, text_is T vs e.
  Proof.
    intros H. destruct (LemmasRegroup.adjust_tight e0 (reads_right _ _ _ H)) as (e & Ht & Hw & _). exists e, e0. auto.
  Qed.

  (** ** The grammar is unambiguous *)

  Lemma token_fun T v k k' : token_in T v k -> token_in T v k' -> k = k'.
  Proof.
    intros H H'. destruct H; inversion H'; subst; try reflexivity; try congruence;
      match goal with A : ID ?t ?n ?q = (_, ?i), A' : ID ?t ?n ?q = (_, ?j) |- _ => rewrite A in A'; injection A' as ->; exfalso; lia end.
  Qed.
  Lemma tokens_fun T vs ts ts' : Forall2 (token_in T) vs ts -> Forall2 (token_in T) vs ts' -> ts = ts'.
  Proof.
    intros H. revert ts'. induction H as [|v k vs ts Hk H IH]; intros ts' H'; inversion H'; subst; [reflexivity|]. f_equal; [eapply token_fun; eassumption|now apply IH].
  Qed.
  Lemma unambiguous T vs s s' : text_says T vs s -> text_says T vs s' -> s = s'.
  Proof.
    intros (ts & F & H) (ts' & F' & H'). rewrite (tokens_fun _ _ _ _ F' F) in H'.
    pose proof (lrun_statement (number T) (idString T) s ts (S (length ts)) KEnd [] [] H (le_n _) (or_introl eq_refl)) as E.
    rewrite (lrun_statement (number T) (idString T) s' ts (S (length ts)) KEnd [] [] H' (le_n _) (or_introl eq_refl)) in E. now injection E.
  Qed.
  Lemma unambiguous_expr T vs e e' : text_is T vs e -> text_is T vs e' -> e = e'.
  Proof.
    intros (e0 & (ts & F & H) & Ht & Hw) (e0' & (ts' & F' & H') & Ht' & Hw'). rewrite (tokens_fun _ _ _ _ F' F) in H'.
    pose proof (R_whole (number T) (idString T) e ts (whole_intro _ _ _ _ _ H Ht Hw) (S (length ts)) (le_n _) expr ARet [] [KEnd]) as E.
    pose proof (R_whole (number T) (idString T) e' ts (whole_intro _ _ _ _ _ H' Ht' Hw') (S (length ts)) (le_n _) expr ARet [] [KEnd]) as E'.
    assert (A : LemmasGrammarExpr.after_expr [KEnd]) by (repeat split; discriminate). rewrite (E A) in E'. specialize (E' A). now injection E'.
  Qed.
End Link.
