(** Proofs for property C67: how large lines and columns get. *)

From Verif Require Import ModelParser ModelErrorText SpecScanner SpecParser SpecPosition SpecPlace LemmasBase LemmasScanner LemmasPosition LemmasPlace.

(** What was read and what is to be read have at most [n] runes. *)
Definition fits (n : Z) (s : scanner) : Prop :=
  exists done, position done (s_line s) (s_column s) /\ Z.of_nat (length done) + Z.of_nat (length (s_in s)) <= n.

(** The line and the column of a context. *)
Definition tame (n : Z) (c : sctx) : Prop := 0 <= c_line c <= n + 1 /\ 0 <= c_column c <= n.

Lemma fits_moves n s s' : fits n s -> moves s s' -> fits n s'.
Proof.
  intros (done & P & H) (k & E & M). exists (done ++ k). split; [now apply M|]. rewrite E in H. rewrite app_length in H |- *. lia.
Qed.

Lemma fits_position n s : fits n s -> 0 <= s_line s <= n + 1 /\ 0 <= s_column s <= n.
Proof.
  intros (done & (a & b & -> & _ & _ & -> & ->) & H). rewrite app_length in H. pose proof (count_occ_bound Z.eq_dec 10 a). lia.
Qed.

Section Range.
  Context {X : FloatLib} {L : CaseLib} {U : RuneLib} {B : BufLib} {P : PrintLib}.

  Lemma scan_fits n fuel : forall s c s' c' t, fits n s -> tame n c -> scan fuel s c = Some (s', c', t) -> tame n c'.
  Proof.
    induction fuel as [|fuel IH]; intros s c s' c' t F T; cbn [scan]; [discriminate|].
    destruct (skipWhitespace (S fuel) s) as [[r s1]|] eqn:E; [|discriminate]. apply skipWhitespace_moves in E. destruct E as [E _].
    destruct (r <? 0); [now intros [= _ <- _]|]. destruct (r =? 59); [now intros [= _ <- _]|].
    destruct (comments (S fuel) s1 r) as [o|] eqn:D; [|discriminate]. apply comments_moves in D. apply (moves_trans _ _ _ E) in D. apply (fits_moves n _ _ F) in D.
    destruct o as [s2|r2 s2|s2]; cbn [comment_at] in D.
    - intros K. exact (IH _ _ _ _ _ D T K).
    - now intros [= _ <- _].
    - intros K. apply scanToken_goes in K. destruct K as (_ & K1 & K2). apply fits_position in D. unfold tame. rewrite K1, K2. exact D.
  Qed.

  Lemma Scan_fits n s c s' c' : fits n s -> tame n c -> Scan s c = Some (s', c') -> fits n s' /\ tame n c'.
  Proof.
    intros F T E. split; [exact (fits_moves n _ _ F (Scan_moves _ _ _ _ E))|].
    revert E. unfold Scan, ScanFuel. destruct (scan _ _ c) as [[[s1 c1] t]|] eqn:K; [|discriminate]. intros [= <- <-].
    revert K. intros K. refine (scan_fits n _ _ _ _ _ _ _ T K). revert F. intros F. apply (fits_moves n _ _ F). now apply moves_here.
  Qed.

  Lemma RuneReader_fits n s : fits n s -> fits n (RuneReader s).
  Proof.
    intros F. destruct (dropLine (s_in s)) as [l [|]] eqn:E; [apply (fits_moves n _ _ F), RuneReader_moves; now exists l|].
    unfold RuneReader. rewrite E. apply dropLine_none in E. subst l. destruct F as (done & Pd & H). exists done. cbn [s_line s_column s_in]. split; [exact Pd|]. cbn [length]. lia.
  Qed.

  (** ** The parser *)
  Definition small (n : Z) (p : parser) : Prop := fits n (p_scanner p) /\ Forall (tame n) (p_lookBack p).

  Lemma tame_nth n l i : 0 <= n -> Forall (tame n) l -> tame n (nth i l c_zero).
  Proof.
    intros N H. revert i. induction H as [|c l Hc Hl IH]; intros [|i]; cbn [nth]; try assumption; try apply IH; unfold tame; cbn; lia.
  Qed.

  Lemma tame_set n l i c : tame n c -> Forall (tame n) l -> Forall (tame n) (ModelParser.set_nth i c l).
  Proof. intros C H. revert i. induction H as [|x l Hx Hl IH]; intros [|i]; cbn [ModelParser.set_nth]; constructor; auto. Qed.

  Lemma fits_pos n s : fits n s -> 0 <= n.
  Proof. intros (done & _ & H). lia. Qed.

  Lemma small_next n p p' e : small n p -> scanRune p = Some (p', e) -> small n p'.
  Proof.
    intros [F T]. unfold scanRune. cbv zeta. destruct (p_unscanned p).
    - destruct (Scan _ _) as [[s c]|] eqn:E; [|discriminate]. intros [= <- _]. destruct (Scan_fits n _ _ _ _ F (tame_nth n _ _ (fits_pos n _ F) T) E) as [F' T'].
      split; [exact F'|]. cbn [p_lookBack]. now apply tame_set.
    - intros [= <- _]. now split.
  Qed.

  Lemma small_back n p p' : small n p -> unscan p = Some p' -> small n p'.
  Proof. intros [F T]. unfold unscan. destruct (_ <? _)%nat; [discriminate|]. intros [= <-]. now split. Qed.

  Definition small_out {A} (n : Z) (r : outcome_ parser A) : Prop := match r with Done _ p | Failed p | Crashed p => small n p | Stuck => True end.

  Lemma run_small {A} n (g : act A) : forall p, small n p -> small_out n (run g p).
  Proof.
    induction g as [a| | | |k IH|k IH|k IH|s k IH|i k IH|l k IH|k IH]; intros p H; cbn [run]; try exact H; try exact Logic.I; auto.
    - destruct (scanRune p) as [[p' [|]]|] eqn:E; [exact (small_next _ _ _ _ H E)|apply IH; exact (small_next _ _ _ _ H E)|exact Logic.I].
    - destruct (unscan p) as [p'|] eqn:E; [apply IH; exact (small_back _ _ _ H E)|exact H].
    - destruct (ID _ s false) as [ids id]. apply IH. destruct H as [F T]. split; [|exact T]. apply (fits_moves n _ _ F). now apply moves_here.
    - apply IH. destruct H as [F T]. split; [|exact T]. now apply RuneReader_fits.
  Qed.

  Lemma skip_small n k : forall p, small n p ->
    small n (snd (skipStmt k p)) /\ match fst (skipStmt k p) with Some (PStmt _ p') | Some (PErr p') | Some (PEOF p') => small n p' | _ => True end.
  Proof.
    induction k as [|k IH]; intros p H; cbn [skipStmt]; [now split|]. destruct (scanRune p) as [[p' e]|] eqn:E; [|now split]. pose proof (small_next _ _ _ _ H E) as H'.
    destruct e; [now split|]. destruct (p_tok p'); try (now split); now apply IH.
  Qed.

  Lemma parse_small n p : small n p -> match Parse p with PStmt _ p' | PErr p' | PEOF p' => small n p' | _ => True end.
  Proof.
    intros H. unfold Parse.
    assert (K : match ParseTree p with PStmt _ p' | PErr p' | PEOF p' => small n p' | _ => True end).
    { unfold ParseTree. destruct (scanRune p) as [[p1 [|]]|] eqn:E; [exact (small_next _ _ _ _ H E)| |exact Logic.I]. pose proof (small_next _ _ _ _ H E) as H1.
      assert (W : match match unscan p1 with
            | None => PCrash
            | Some p => let '(o, p) := if p_failed p then skipStmt (parse_fuel p) p else (None, p) in
                match o with Some r => r | None => let p := set_failed p false in
                    match run (parseWhole (parse_fuel p)) p with Done s p => PStmt s p | Failed p => PErr (set_failed p (match p_tok p with KEnd => false | _ => true end)) | Crashed _ => PCrash | Stuck => PStuck end end
            end with PStmt _ p' | PErr p' | PEOF p' => small n p' | _ => True end).
      { destruct (unscan p1) as [p2|] eqn:E2; [|exact Logic.I]. pose proof (small_back _ _ _ H1 E2) as H2.
        assert (G : forall p3, small n p3 -> match (let p := set_failed p3 false in
            match run (parseWhole (parse_fuel p)) p with Done s p => PStmt s p | Failed p => PErr (set_failed p (match p_tok p with KEnd => false | _ => true end)) | Crashed _ => PCrash | Stuck => PStuck end)
            with PStmt _ p' | PErr p' | PEOF p' => small n p' | _ => True end).
        { intros p3 H3. cbv zeta. pose proof (run_small n (parseWhole (parse_fuel (set_failed p3 false))) (set_failed p3 false) H3) as R. destruct (run _ _); exact R || exact Logic.I. }
        destruct (p_failed p2); [|now apply G]. pose proof (skip_small n (parse_fuel p2) p2 H2) as [S1 S2]. destruct (skipStmt (parse_fuel p2) p2) as [[r|] p3]; cbn [fst snd] in *.
        - destruct r; exact S2 || exact Logic.I.
        - now apply G. }
      destruct (p_tok p1); try exact W. exact H1. }
    destruct (ParseTree p); exact K.
  Qed.

  Lemma expr_small n p : small n p -> small_out n (ParseExpr p).
  Proof. intros H. unfold ParseExpr. pose proof (run_small n (parseExpr (parse_fuel p)) p H) as R. destruct (run _ _); exact R. Qed.

  Lemma parsing_small input p : parsing input p -> small (Z.of_nat (length input)) p.
  Proof.
    intros H. induction H as [ids input H|input p s p' H IH E|input p p' H IH E|input p p' H IH E|input p e p' H IH E|input p p' H IH E|input p t H IH|input p H IH].
    - split; [exists []; split; [apply position_nil|cbn; lia]|]. repeat constructor; cbn; lia.
    - pose proof (parse_small _ p IH) as K. rewrite E in K. exact K.
    - pose proof (parse_small _ p IH) as K. rewrite E in K. exact K.
    - pose proof (parse_small _ p IH) as K. rewrite E in K. exact K.
    - pose proof (expr_small _ p IH) as K. rewrite E in K. exact K.
    - pose proof (expr_small _ p IH) as K. rewrite E in K. exact K.
    - destruct IH as [F T]. split; [|exact T]. apply (fits_moves _ _ _ F). now apply moves_here.
    - destruct IH as [F T]. split; [|exact T]. apply (fits_moves _ _ _ F). apply data_moves.
  Qed.

  Lemma place_range input p : parsing input p ->
    0 <= c_line (p_sctx p) <= Z.of_nat (length input) + 1 /\ 0 <= c_column (p_sctx p) <= Z.of_nat (length input).
  Proof. intros H. destruct (parsing_small input p H) as [F T]. exact (tame_nth _ _ _ (fits_pos _ _ F) T). Qed.

  (** What the error says. *)
  Lemma place_text input fn p p' : parsing input p -> Z.of_nat (length input) < 2 ^ 63 - 1 -> Parse p = PErr p' ->
    exists text, Parse_prefix fn p = Some text /\ (text = [] \/ error_says fn (c_line (p_sctx p')) (c_column (p_sctx p')) text).
  Proof.
    intros H N E. pose proof (place_range input p' (ps_error _ _ _ H E)) as [R1 R2].
    apply prefix_text; [exact E|unfold is_i64; lia..].
  Qed.
End Range.
