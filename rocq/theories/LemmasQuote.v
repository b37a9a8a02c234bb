(** What is printed for text with a quote in it is not read back, and what is
    printed for bytes is read as text. *)

From Verif Require Import ModelPrint SpecPrint LemmasBase LemmasValue LemmasScanner LemmasScanTokens LemmasScanProps LemmasParser LemmasParserProps LemmasAdjust LemmasDemoParser LemmasGrammarLink LemmasPieces LemmasPrint.

(** Whatever a part of the parser is given to read. *)
Fixpoint always {A} (Q : A -> Prop) (g : act A) : Prop :=
  match g with
  | ARet a => Q a
  | AError | ACrash | AFuel => True
  | AScan k => forall t, always Q (k t)
  | AUnscan k => always Q k
  | ATok k => forall t, always Q (k t)
  | AIntern _ k => forall i, always Q (k i)
  | AName _ k => forall s, always Q (k s)
  | ABytes _ k => forall b, always Q (k b)
  | AReader k => forall z, always Q (k z)
  end.

Lemma always_bind {A B} (Q : B -> Prop) (g : act A) (h : A -> act B) : always (fun a => always Q (h a)) g -> always Q (abind g h).
Proof. induction g; cbn [always abind]; auto. Qed.
Lemma always_weaken {A} (Q Q' : A -> Prop) (g : act A) : (forall a, Q a -> Q' a) -> always Q g -> always Q' g.
Proof. intros H. induction g; cbn [always]; auto. Qed.
Lemma always_any {A} (Q : A -> Prop) (g : act A) : (forall a, Q a) -> always Q g.
Proof. intros H. induction g; cbn [always]; auto. Qed.

(** Not just a literal in parentheses. *)
Definition mark (w : word) : Prop :=
  match w with WOp _ | WCall _ => True | WAtom (Subquery _ _ _ _) => True | _ => False end.
Definition composite (e : expr) : Prop := exists w, In w (words e) /\ mark w.

Lemma composite_literal e v : strip e = Literal v -> ~ composite e /\ In (WAtom (Literal v)) (words e).
Proof.
  induction e as [v'| | |op x IH| |]; cbn [strip]; try discriminate.
  - intros [= ->]. split; [|now left]. intros (w & [<-|[]] & M). exact M.
  - destruct op; try discriminate. intros E. destruct (IH E) as [H1 H2]. cbn [words]. split.
    + intros (w & Hi & M). apply in_app_or in Hi. destruct Hi as [[<-|[]]|Hi]; [exact M|]. apply in_app_or in Hi. destruct Hi as [Hi|[<-|[]]]; [|exact M]. apply H1. now exists w.
    + apply in_or_app. right. apply in_or_app. now left.
Qed.
Lemma deref_literal b e v : strip (deref_expr b e) = Literal v -> exists v', strip e = Literal v' /\ v = deref_value b v'.
Proof.
  induction e as [v'| | |op x IH| |]; cbn [deref_expr strip]; try discriminate.
  - intros [= <-]. eauto.
  - destruct op; cbn [strip]; try discriminate. exact IH.
Qed.

Section Run.
  Context {X : FloatLib} {L : CaseLib} {U : RuneLib} {B : BufLib} {P : PrintLib}.
  Context (HU : RuneLib_scan U).

  Lemma always_run {A} (Q : A -> Prop) (g : act A) : always Q g -> forall t a t', t_run g t = Done a t' -> Q a.
  Proof.
    induction g as [x| | | |k IH|k IH|k IH|s k IH|i k IH|l k IH|k IH]; cbn [always t_run]; intros H t a t' E; try discriminate; eauto.
    - now injection E as <- _.
    - destruct (t_next t) as [[t1 [|]]|]; try discriminate. eapply IH; eauto.
    - destruct (t_back t); try discriminate. eapply IH; eauto.
    - destruct (ID _ s false). eapply IH; eauto.
  Qed.

  (** What stands behind a text. *)
  Lemma string_first n s : match subExprBody n (parseSubExpr n) (parseFromItem n) with
    | AScan k => always (fun e => e = Literal (VString s) \/ composite e) (k (KString s)) | _ => False end.
  Proof.
    unfold subExprBody, parseOperand_, scan_. cbn [abind].
    assert (C : forall e w, In w (words e) -> mark w -> e = Literal (VString s) \/ composite e) by (intros e w H M; right; now exists w).
    apply always_bind, always_any. intros [[op bop]|].
    - apply always_bind, always_any. intros [|].
      + destruct bop; [|exact Logic.I]. apply always_bind, always_any. intros t. apply always_bind, always_any. intros q. cbn [always]. eapply C; [now left|exact Logic.I].
      + apply always_bind, always_any. intros r. cbn [always]. apply (C _ (WOp op)); [|exact Logic.I]. cbn [words]. apply in_or_app. right. now left.
    - unfold parsePostfix_. apply always_bind, always_any. intros [|]; [|now left].
      apply always_bind, always_any. intros t. destruct (ident_of t =? kIN).
      { apply always_bind, always_any. intros q. cbn [always]. eapply C; [now left|exact Logic.I]. }
      destruct (ident_of t =? kNOT).
      { apply always_bind, always_any. intros [|].
        - apply always_bind, always_any. intros q. cbn [always]. eapply C; [now left|exact Logic.I].
        - apply always_bind, always_any. intros _. now left. }
      apply always_bind, always_any. intros nt. apply always_bind, always_any. intros _. apply always_bind, always_any. intros i. destruct nt; cbn [always]; (eapply C; [now left|exact Logic.I]).
  Qed.

  Lemma adjusts_words e : always (fun t => words t = words e) (adjust e).
  Proof. unfold adjust. destruct (adjust_total e) as (t & _ & Hw & -> & _). exact Hw. Qed.

  Lemma string_result n s : match parseExpr (S n) with
    | AScan k => always (fun e => words e = [WAtom (Literal (VString s))] \/ composite e) (k (KString s)) | _ => False end.
  Proof.
    pose proof (string_first n s) as H. unfold parseExpr, parseExpr_. cbn [parseSubExpr]. destruct (subExprBody n (parseSubExpr n) (parseFromItem n)) as [| | | |k| | | | | |]; try contradiction.
    cbn [abind]. apply always_bind. revert H. apply always_weaken. intros e He. eapply always_weaken; [|apply adjusts_words]. cbn beta. intros t Hw.
    destruct He as [->|(w & Hi & M)]; [now left|]. right. exists w. now rewrite Hw.
  Qed.

  (** The first token of what starts with a quote. *)
  Lemma gap_quote g w f l : gap g -> g ++ w ++ f = 39 :: l -> w <> [] -> g = [].
  Proof.
    intros G E N. destruct G as [|r g S G|u g H G|u g H G]; [reflexivity|..]; injection E as E; try discriminate. subst r. apply (space_ascii HU) in S; lia.
  Qed.
  Lemma lexeme_quote w v f l x : lexeme w v f l -> w = 39 :: x -> exists w0 v0, x = w0 ++ [39] /\ v = TString (encode v0) /\ quoted_body false w0 v0.
  Proof.
    assert (D39 : x_is_digit 39 = true -> False) by (intros H; apply (digit_ascii HU) in H; lia).
    intros H. destruct H; intros E; try discriminate.
    - injection E as -> _. destruct H as [H|H]; [apply (letter_ascii HU) in H; lia|discriminate].
    - injection E as -> _. cbn in H. intuition discriminate.
    - destruct H; cbn in E; try discriminate. destruct ds; [contradiction|]. cbn in E. injection E as E _. inversion H1; subst. unfold digit in *. lia.
    - destruct H; cbn in E; try discriminate. destruct w; [contradiction|]. cbn in E. injection E as E _. inversion H1; subst. contradiction.
    - injection E as <-. eauto.
    - injection E as -> _. cbn in H. intuition discriminate.
    - injection E as -> _. cbn in H. intuition discriminate.
    - injection E as -> _. cbn in H. intuition discriminate.
    - injection E as -> _. unfold op_alone, op_rune in H. cbn in H. intuition discriminate.
    - injection E as -> _. cbn in H. repeat destruct H as [H|H]; try discriminate; contradiction.
  Qed.
  Lemma body_short w v : quoted_body false w v -> (length v <= length w)%nat /\ (In 39 w -> (length v < length w)%nat) /\ incl v w.
  Proof.
    induction 1 as [|r w v N _ H IH|w v H IH|sp w v F K H IH|e r w v K]; [..|discriminate].
    - split; [apply le_n|]. split; [contradiction|apply incl_refl].
    - destruct IH as (H1 & H2 & H3). cbn [length]. split; [lia|]. split; [intros [E|I]; [congruence|specialize (H2 I); lia]|]. apply incl_cons; [now left|]. now apply incl_tl.
    - destruct IH as (H1 & H2 & H3). cbn [length]. split; [lia|]. split; [lia|]. apply incl_cons; [now left|]. now do 2 apply incl_tl.
    - destruct IH as (H1 & H2 & H3). cbn [length]. rewrite app_length. cbn [length]. split; [lia|]. split; [lia|]. apply incl_tl, incl_appr, incl_tl, H3.
  Qed.

  Lemma quote_lost input p T w text : parsing input p -> p_unscanned p = 0%nat -> Forall scalar w -> In 39 w ->
    exprString T (Literal (VString (encode w))) = PText (encode text) -> Forall scalar text -> rest (p_scanner p) = text ->
    forall e p', ParseExpr p = Done e p' -> strip e <> Literal (VString (encode w)).
  Proof.
    intros HP Hu Hw Hq Et St Hr e p' E Es.
    assert (Tx : text = 39 :: w ++ [39]).
    { apply encode_injective; [exact St| |].
      - constructor; [apply ascii_scalar; lia|]. apply Forall_app. split; [exact Hw|]. constructor; [apply ascii_scalar; lia|constructor].
      - injection Et as Et. rewrite <- Et. change (39 :: w ++ [39]) with ([39] ++ w ++ [39]). now rewrite !encode_app. }
    clear Et. destruct (parsing_in_step HU _ _ HP) as [t HS]. pose proof (proj1 (in_step_st _ _ _) HS) as [HS1 HS2].
    pose proof (ParseExpr_sound HU input true (no_bad input) p t HS1 HS2) as SM. rewrite E in SM. pose proof HS as ((O1 & O2 & _) & S1 & _).
    rewrite O2 in Hu. apply length_zero_iff_nil in Hu. rewrite O1 in *.
    assert (Hn : exists n, t_fuel t = S n) by (unfold t_fuel; eexists; reflexivity). destruct Hn as [n Hn]. rewrite Hn in SM.
    destruct (t_run (parseExpr (S n)) t) as [e0 t'|t'|t'|] eqn:ER; try contradiction. destruct SM as (-> & _).
    destruct (deref_literal _ _ _ Es) as (v' & E0 & Ev).
    destruct (parseExpr (S n)) as [| | | |k| | | | | |] eqn:EP; try (pose proof (string_result n []) as Z; rewrite EP in Z; contradiction).
    cbn [t_run] in ER. unfold t_next in ER. rewrite Hu in ER. destruct (Scan (t_scanner t) _) as [[s c]|] eqn:ES; [|discriminate].
    assert (Hc : exists v0, tok_of c = KString (encode v0) /\ v0 <> w /\ Forall scalar v0).
    { destruct (sound HU _ _ _ _ _ S1 ES) as [(_ & _ & g & z & Rz & G & N)|[(C & _)|(g & x & f & v & Rz & G & Hx & Hh)]].
      - exfalso. rewrite Hr, Tx in Rz.
        assert (Z : g = []) by (destruct z as [|z0 z]; [|eapply (gap_quote g (z0 :: z) []); [exact G|rewrite app_nil_r; symmetry; exact Rz|discriminate]];
          destruct G as [|r g S G|u g H G|u g H G]; [reflexivity|..]; injection Rz as Rz; try discriminate; subst r; apply (space_ascii HU) in S; lia).
        subst g. cbn [app] in Rz. destruct N; discriminate.
      - exfalso. assert (Z : exists b, tok_of c = KError b) by (unfold tok_of; rewrite C; cbn; eauto).
        destruct Z as [[|] Z]; rewrite Z in ER; [discriminate|]. unfold t_tok in ER. cbn [t_past hd] in ER. rewrite Z in ER.
        assert (K : forall b, match parseExpr (S n) with AScan k => always (fun _ => False) (k (KError b)) | _ => False end).
        { intros b. unfold parseExpr, parseExpr_. cbn [parseSubExpr]. unfold subExprBody, parseOperand_, scan_. cbn [abind]. do 2 apply always_bind. hnf. intros [| |[|]| | | | | | | |]; exact Logic.I. }
        specialize (K false). rewrite EP in K. exact (always_run _ _ K _ _ _ ER).
      - rewrite Hr, Tx in Rz. destruct (lexeme_holds_token _ _ _ _ _ _ _ Hx Hh) as (_ & _ & Nx).
        assert (Z : g = []) by (eapply gap_quote; [exact G|symmetry; exact Rz|exact Nx]). subst g. cbn [app] in Rz.
        destruct x as [|r x]; [contradiction|]. injection Rz as <- Rz. destruct (lexeme_quote _ _ _ _ _ Hx eq_refl) as (w0 & v0 & -> & -> & Hb).
        destruct (body_short _ _ Hb) as (B1 & B2 & B3). exists v0. split.
        { cbn [holds] in Hh. destruct Hh as (C1 & C2 & _). unfold tok_of. rewrite C1, C2. reflexivity. }
        assert (Len : (length w + 1 = length w0 + 1 + length f)%nat) by (apply (f_equal (@length Z)) in Rz; rewrite !app_length in Rz; cbn in Rz; lia).
        split.
        + intros ->. assert (f = []) by (apply length_zero_iff_nil; lia). subst f. rewrite app_nil_r in Rz. apply app_inj_tail in Rz. destruct Rz as [Rz _]. subst w0. specialize (B2 Hq). lia.
        + apply Forall_forall. intros y Hy. apply B3 in Hy. rewrite Forall_forall in St. apply St. rewrite Tx. right. rewrite Rz. apply in_or_app. left. apply in_or_app. now left. }
    destruct Hc as (v0 & Ht & Nv & Sv). rewrite Ht in ER. unfold t_tok in ER. cbn [t_past hd] in ER. rewrite Ht in ER.
    pose proof (string_result n (encode v0)) as K. rewrite EP in K. pose proof (always_run _ _ K _ _ _ ER) as [W|W].
    - destruct (composite_literal _ _ E0) as [_ I]. rewrite W in I. destruct I as [I|[]]. injection I as <-. cbn in Ev. injection Ev as Ev. apply Nv. symmetry. now apply encode_injective.
    - exact (proj1 (composite_literal _ _ E0) W).
  Qed.

  Lemma bytes_as_text : CaseLib_ok L -> forall T b, real T ->
    exists text, exprString T (Literal (VBytes b)) = PText (encode text) /\ Forall scalar text /\
      forall input p, parsing input p -> p_unscanned p = 0%nat -> rest (p_scanner p) = text -> real (s_ids (p_scanner p)) -> later T (s_ids (p_scanner p)) ->
        exists e s p', ParseExpr p = Done e p' /\ strip e = Literal (VString s).
  Proof.
    intros HL T b R. set (w := map bz (str "\x" ++ flat_map (fun v => [hexDigit (bz v / 16); hexDigit (bz v mod 16)]) b)).
    assert (A : Forall (fun x => is_ascii x /\ x <> x27) (str "\x" ++ flat_map (fun v => [hexDigit (bz v / 16); hexDigit (bz v mod 16)]) b)).
    { apply Forall_app. split; [repeat constructor; try (unfold is_ascii; vm_compute; reflexivity); discriminate|].
      assert (D : forall d, 0 <= d < 16 -> is_ascii (hexDigit d) /\ hexDigit d <> x27).
      { intros d Hd. unfold hexDigit, is_ascii. assert (Z : 48 <= (if d <? 10 then 48 + d else 87 + d) < 128) by (destruct (Z.ltb_spec d 10); lia).
        rewrite bz_zb, Z.mod_small by lia. split; [lia|]. intros E. apply (f_equal bz) in E. rewrite bz_zb, Z.mod_small in E by lia. change (bz x27) with 39 in E. lia. }
      apply Forall_forall. intros y Hy. apply in_flat_map in Hy. destruct Hy as (c & _ & [<-|[<-|[]]]); apply D; pose proof (bz_range c); Z.to_euclidean_division_equations; lia. }
    assert (Ew : encode w = str "\x" ++ flat_map (fun v => [hexDigit (bz v / 16); hexDigit (bz v mod 16)]) b) by (apply encode_ascii; eapply Forall_impl; [|exact A]; now intros ? []).
    assert (Hp : plain T false (Literal (VString (encode w)))).
    { constructor.
      - apply Forall_map. eapply Forall_impl; [|exact A]. cbn beta. intros y [Hy _]. unfold is_ascii in Hy. pose proof (bz_range y). apply ascii_scalar. lia.
      - intros Hi. apply in_map_iff in Hi. destruct Hi as (y & Ey & Hy). rewrite Forall_forall in A. destruct (A y Hy) as [_ N]. apply N. apply bz_inj. exact Ey. }
    destruct (round_trip HU HL T _ R Hp) as (text & E & St & K). exists text. split.
    - rewrite <- E. cbn [exprString FormatValue]. unfold bytesString. now rewrite Ew.
    - split; [exact St|]. intros input p H1 H2 H3 H4 H5. destruct (K input p H1 H2 H3 H4 H5) as (e & p' & H6 & H7). cbn [strip] in H7. eauto.
  Qed.
End Run.
