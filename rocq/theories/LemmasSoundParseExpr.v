(** What ParseExpr has read when it returns an expression; floats among it. *)

From Verif Require Import ModelParser SpecParser SpecTokens SpecIdent SpecAccepts SpecPrint LemmasBase LemmasValue LemmasIdent LemmasScanProps LemmasListRun LemmasParserProps LemmasGrammarLink LemmasCreate LemmasSound LemmasSoundDeref LemmasSoundWords LemmasSoundExpr LemmasSoundStmt LemmasSoundLink.

(** A float in an expression was a token. *)
Section Words.
  Variable id : bytes -> Z.
  Variable name : Z -> bytes.
  Variable q : Z.
  Notation here := (fun e ts => In (WAtom (Literal (VFloat q))) (words e) -> In (KFloat q) ts).

  Lemma float_token :
    (forall b e ts, a_operand id name b e ts -> here e ts) /\ (forall b e ts, a_sub id name b e ts -> here e ts) /\
    (forall l ts, a_args id name l ts -> here (SExpr 0 l) ts).
  Proof.
    assert (H : (forall b e ts, a_operand id name b e ts -> here e ts) /\ (forall b e ts, a_sub id name b e ts -> here e ts) /\
      (forall l ts, a_args id name l ts -> here (SExpr 0 l) ts) /\ True).
    { pose proof (accepts_min id name (fun _ => here) (fun _ => here) (fun l ts => here (SExpr 0 l) ts) (fun _ _ => True) (fun _ _ => True) (fun _ _ => True) (fun _ _ => True) (fun _ _ => True)
        (fun _ _ => True) (fun _ _ _ => True) (fun _ _ => True) (fun _ _ => True) (fun _ _ => True) (fun _ _ => True) (fun _ _ => True) (fun _ _ _ => True) (fun _ _ => True) (fun _ _ _ => True)) as M.
      cbn beta in M. repeat match type of M with ?A -> _ => assert (W : A); [clear M|specialize (M W); clear W] end; try tauto; intros; try exact Logic.I; cbn [words app] in *;
        repeat match goal with
        | H : In _ (_ ++ _) |- _ => apply in_app_or in H
        | H : In _ (_ :: _) |- _ => apply in_inv in H
        | H : In _ [] |- _ => destruct H
        | H : _ \/ _ |- _ => destruct H
        | H : WAtom _ = WAtom _ |- _ => injection H as H; try subst
        | H : _ = WAtom _ |- _ => try discriminate H
        end; try discriminate; rewrite ?in_app_iff in *; cbn [In app] in *; rewrite ?in_app_iff in *; cbn [In]; auto 10.
    }
    tauto.
  Qed.
End Words.

Section SoundExpr.
  Context {X : FloatLib} {L : CaseLib} {U : RuneLib} {B : BufLib} {P : PrintLib} (HU : RuneLib_scan U).

  Lemma scans_tokens T text vs new left ts a : scans T text vs new left -> new = ts ++ a -> Forall plain ts ->
    exists vs' mid vs'', tokens text vs' mid /\ Forall2 (token_read T) vs' ts /\ scans T mid vs'' a left.
  Proof.
    intros H. revert ts. induction H as [l|g w v f l k0 vs new left G Hx Hk H IH|g e vs new left G N H IH|l l' b vs new left H IH]; intros ts E HP.
    - destruct ts; [|discriminate]. cbn in E. subst a. exists [], l, []. repeat split; constructor.
    - destruct ts as [|k1 ts]; cbn [app] in E.
      + subst a. exists [], (g ++ w ++ f), (v :: vs). split; [constructor|]. split; [constructor|]. econstructor; eassumption.
      + injection E as -> ->. inversion HP as [|? ? P1 P2]; subst. destruct (IH ts eq_refl P2) as (vs' & mid & vs'' & K1 & K2 & K3).
        exists (v :: vs'), mid, vs''. split; [econstructor; eassumption|]. split; [now constructor|exact K3].
    - destruct ts as [|k1 ts]; cbn [app] in E.
      + subst a. exists [], (g ++ e), vs. split; [constructor|]. split; [constructor|]. now constructor.
      + injection E as <- ->. inversion HP as [|? ? P1 P2]; subst. destruct P1.
    - destruct ts as [|k1 ts]; cbn [app] in E.
      + subst a. exists [], l, vs. split; [constructor|]. split; [constructor|]. econstructor; eassumption.
      + injection E as <- ->. inversion HP as [|? ? P1 P2]; subst. destruct P1.
  Qed.

  Lemma expr_sound input p e p' : parsing input p -> p_unscanned p = 0%nat -> real (s_ids (p_scanner p)) -> ParseExpr p = Done e p' ->
    exists vs left, tokens (rest (p_scanner p)) vs left /\ expr_accepts (s_ids (p_scanner p')) vs e /\ (p_unscanned p' = 0%nat -> rest (p_scanner p') = left).
  Proof.
    intros HPs Hu R EP. destruct (parsing_in_step HU _ _ HPs) as [t HS]. pose proof (proj1 (in_step_st _ _ _) HS) as [HS1 HS2].
    pose proof (ParseExpr_sound HU input true (no_bad input) p t HS1 HS2) as SM. rewrite EP in SM. pose proof HS as ((O1 & O2 & _) & S1 & _).
    rewrite O1 in *. rewrite O2 in Hu. apply length_zero_iff_nil in Hu.
    destruct (t_run (parseExpr (t_fuel t)) t) as [e0 tt|tt|tt|] eqn:ER; try contradiction. destruct SM as (ES & ST' & _). destruct ST' as [(O1' & O2' & _) _].
    rewrite O1', O2' in *. set (T := s_ids (t_scanner tt)) in *.
    pose proof (run_grown HU input (parseExpr (t_fuel t)) t S1 R) as RG. rewrite ER in RG.
    destruct (follow HU input T (t_past t) (parseExpr (t_fuel t)) t []
      (fun fut x p' a' => exists ts, fut = ts ++ a' /\ a_whole (number T) (idString T) x ts) e0 tt)
      as (vs & new & pc' & H1 & H2 & H3 & (ts & E1 & E2)).
    - reflexivity.
    - exact S1.
    - exact R.
    - rewrite Hu. constructor.
    - rewrite Hu. constructor.
    - intros fut. rewrite Hu. cbn [map app]. eapply wpl_mono; [|apply (S_expr (number T) (idString T) (t_fuel t) [] fut Logic.I)].
      intros x p0 a0 (ts & K1 & _ & _ & K2). exists ts. split; [exact K1|exact K2].
    - exact ER.
    - exact (grown_refl _ (proj1 RG)).
    - destruct (scans_tokens _ _ _ _ _ _ _ H1 E1 (pl_whole _ _ _ _ E2)) as (vs' & mid & vs'' & K1 & K2 & K3).
      exists vs', mid. split; [exact K1|]. split.
      + exists ts. split; [exact K2|]. rewrite ES. now apply deref_a_whole.
      + intros Z. apply length_zero_iff_nil in Z. rewrite Z in K3. now inversion K3.
  Qed.

  (** A float is written with a dot. *)
  Lemma float_dot text vs left p : tokens text vs left -> In (TFloat p) vs -> In 46 text.
  Proof.
    induction 1 as [l|g w v f l vs left G Hx H IH]; [contradiction|]. intros [->|Hi].
    - assert (K : In 46 w) by (inversion Hx; subst; apply in_or_app; right; apply in_or_app; right; now left). apply in_or_app. right. apply in_or_app. now left.
    - rewrite !in_app_iff. right. right. specialize (IH Hi). inversion Hx; subst; try assumption.
      all: match goal with K : quote_ends _ _ |- _ => destruct K as (sp & -> & _); apply in_or_app; now right end.
  Qed.

  Lemma float_needs_dot input p e p' q : parsing input p -> p_unscanned p = 0%nat -> real (s_ids (p_scanner p)) -> ParseExpr p = Done e p' ->
    strip e = Literal (VFloat q) -> In 46 (rest (p_scanner p)).
  Proof.
    intros HPs Hu R EP ES. destruct (expr_sound _ _ _ _ HPs Hu R EP) as (vs & left & HT & (ts & F & Hw) & _).
    assert (Hi : In (WAtom (Literal (VFloat q))) (words e)).
    { clear - ES. induction e as [v'| | |op x IH| |]; cbn [strip] in ES; try discriminate; [injection ES as ->; now left|]. destruct op; try discriminate. cbn [words]. rewrite !in_app_iff. auto. }
    destruct Hw as [c e0 e ts Hs _ Ew _]. rewrite Ew in Hi. apply (proj1 (proj2 (float_token _ _ q)) _ _ _ Hs) in Hi.
    assert (K : In (TFloat q) vs).
    { clear - F Hi. induction F as [|v k vs ts H F IH]; [contradiction|]. destruct Hi as [->|Hi]; [left|right; auto]. inversion H as [? ? K|]; subst. now inversion K. }
    exact (float_dot _ _ _ _ HT K).
  Qed.
End SoundExpr.
