(** The console. *)

From Verif Require Import SpecMain SpecIdent LemmasBase LemmasIdent LemmasScanProps LemmasParserProps LemmasGrammarLink.

Section Main.
  Context {X : FloatLib} {L : CaseLib} {U : RuneLib} {B : BufLib} {P : PrintLib}.

  Lemma println_line T s : println T s = line T s.
  Proof. destruct s as [s|]; [|reflexivity]. unfold println, line. cbn [option_map]. now destruct (stmtString T s). Qed.

  Lemma main_transcript p l : to_eof p l -> forall n, (length l <= n)%nat ->
    mainLoop n p = (transcript l, if existsb (fun r => match r with PCrash => true | _ => false end) l then Panicked else Exited).
  Proof.
    induction 1 as [p p' E|p E|p s p' l E _ IH|p p' l E _ IH]; intros [|n] Hn; cbn [length] in Hn; try (exfalso; lia); cbn [mainLoop transcript existsb orb]; rewrite E; try reflexivity.
    - rewrite (IH n) by lia. now rewrite println_line.
    - rewrite (IH n) by lia. reflexivity.
  Qed.

  Context (HU : RuneLib_scan U).

  Lemma main_ends input : Forall (fun r => 0 <= r <= 1114111) input ->
    exists out f, f <> Running /\ (length out <= 2 * length input + 1)%nat /\ forall n, (length input < n)%nat -> main_ n input = (out, f).
  Proof.
    intros H. destruct (reads_text HU input idt_init H) as (l & Hl & Hn). exists (transcript l), (if existsb (fun r => match r with PCrash => true | _ => false end) l then Panicked else Exited).
    split; [destruct (existsb _ _); discriminate|]. split.
    - assert (K : (length (transcript l) <= 2 * length l - 1)%nat); [|lia]. clear - Hl. induction Hl as [p p' E|p E|p s p' l E Hl IH|p p' l E Hl IH]; cbn [transcript length]; try lia.
      + destruct l; [inversion Hl|cbn [length] in *; lia].
      + destruct l; [inversion Hl|cbn [length] in *; lia].
    - intros n K. apply main_transcript; [exact Hl|lia].
  Qed.

  (** The end of the text. *)
  Lemma parse_end input p g e : parsing input p -> p_unscanned p = 0%nat -> p_failed p = false ->
    rest (p_scanner p) = g ++ e -> gap g -> no_token e -> exists p', Parse p = PEOF p'.
  Proof.
    intros HP Hu Hf ER G N. destruct (parsing_in_step HU _ _ HP) as [t HS]. pose proof (parse_same HU _ _ _ HS) as SM. pose proof HS as ((O1 & O2 & O3 & _) & S1 & _).
    rewrite O1 in ER. rewrite O2 in Hu. apply length_zero_iff_nil in Hu. rewrite Hf in SM.
    destruct (dropped HU input _ (nth 2 (t_past t) c_zero) g e S1 ER G N) as (s' & ES & _ & _).
    assert (ET : exists t', t_parse false t = TEOF t').
    { unfold t_parse, t_next. rewrite Hu, ES. cbn. now eexists. }
    destruct ET as [t' ET]. rewrite ET in SM. destruct (Parse p) as [| |p'| |]; try contradiction. now exists p'.
  Qed.

  Lemma idtable_dec (t t' : idtable) : {t = t'} + {t <> t'}.
  Proof.
    assert (D : forall b b' : bytes, {b = b'} + {b <> b'}) by (apply list_eq_dec, Byte.byte_eq_dec).
    decide equality; [apply Z.eq_dec|apply list_eq_dec; intros [i n] [i' n']|apply list_eq_dec; intros [n i] [n' i']];
      (destruct (Z.eq_dec i i') as [->|]; [|right; congruence]; destruct (D n n') as [->|]; [now left|right; congruence]).
  Qed.

  Lemma some_tables l : forall t, real t -> exists Ts, tables t Ts /\ Forall2 (fun T vs => forall n q, In (TName n q) vs -> knows T n q) Ts l.
  Proof.
    induction l as [|vs l IH]; intros t R; [exists []; split; [exact Logic.I|constructor]|].
    destruct (register_spec vs t R) as [G K]. destruct (IH (register vs t) (proj1 G)) as (Ts & H1 & H2). exists (register vs t :: Ts).
    split; [|now constructor]. split; [apply G|]. split; [now apply grown_later|exact H1].
  Qed.

  Lemma parses_program text vss : program text vss -> forall input p, parsing input p -> p_unscanned p = 0%nat -> p_failed p = false ->
    real (s_ids (p_scanner p)) -> rest (p_scanner p) = text ->
    exists Ts, tables (s_ids (p_scanner p)) Ts /\ Forall2 (fun T vs => forall n q, In (TName n q) vs -> knows T n q) Ts vss /\
      forall ss, says_each Ts vss ss -> forall n, (length vss < n)%nat -> mainLoop n p = (echo Ts ss ++ [ShowPrompt], Exited).
  Proof.
    induction 1 as [g e G N|text vs left l NE ST _ IH]; intros input p HP Hu Hf R ER.
    - exists []. split; [exact Logic.I|]. split; [constructor|]. intros ss HS n Hn. inversion HS; subst. destruct n as [|n]; [cbn in Hn; lia|].
      cbn [mainLoop]. destruct (parse_end _ _ _ _ HP Hu Hf ER G N) as [p' ->]. reflexivity.
    - rewrite <- ER in ST. destruct (parse_text HU _ _ _ _ HP Hu Hf R ST) as (T & R1 & L1 & K1 & HT).
      assert (D : (exists s p', Parse p = PStmt (Some s) p' /\ s_ids (p_scanner p') = T /\ rest (p_scanner p') = left /\ p_unscanned p' = 0%nat /\ p_failed p' = false) \/
                  ~ (exists s p', Parse p = PStmt (Some s) p' /\ s_ids (p_scanner p') = T /\ rest (p_scanner p') = left /\ p_unscanned p' = 0%nat /\ p_failed p' = false)).
      { destruct (Parse p) as [[s|] p'|p'|p'| |]; try (right; intros (s' & p'' & K & _); discriminate K).
        destruct (idtable_dec (s_ids (p_scanner p')) T) as [D1|D1]; [|right; intros (s' & p'' & [= <- <-] & K & _); contradiction].
        destruct (list_eq_dec Z.eq_dec (rest (p_scanner p')) left) as [D2|D2]; [|right; intros (s' & p'' & [= <- <-] & _ & K & _); contradiction].
        destruct (Nat.eq_dec (p_unscanned p') 0) as [D3|D3]; [|right; intros (s' & p'' & [= <- <-] & _ & _ & K & _); contradiction].
        destruct (p_failed p') eqn:D4; [right; intros (s' & p'' & [= <- <-] & _ & _ & _ & K); congruence|]. left. exists s, p'. auto. }
      destruct D as [(s0 & p' & EP & ET & E1 & E2 & E3)|D].
      + destruct (IH input p' (ps_stmt _ _ _ _ HP EP) E2 E3 ltac:(now rewrite ET) E1) as (Ts & H1 & H2 & H3). rewrite ET in H1.
        exists (T :: Ts). split; [now repeat split|]. split; [now constructor|]. intros ss HS n Hn. inversion HS as [|? ? ? ? s ss' Sy HS']; subst.
        destruct n as [|n]; [cbn in Hn; lia|]. cbn [length] in Hn. cbn [mainLoop]. destruct (HT s Sy) as (p'' & EP' & _). rewrite EP in EP'. injection EP' as -> ->.
        rewrite EP, (H3 ss' HS' n) by lia. reflexivity.
      + destruct (some_tables l T R1) as (Ts & H1 & H2). exists (T :: Ts). split; [now repeat split|]. split; [now constructor|].
        intros ss HS n Hn. inversion HS as [|? ? ? ? s ss' Sy HS']; subst. exfalso. apply D. destruct (HT s Sy) as (p' & K). now exists s, p'.
  Qed.

  Lemma main_echo input vss : Forall (fun r => 0 <= r <= 1114111) input -> program input vss ->
    exists Ts, tables idt_init Ts /\ Forall2 (fun T vs => forall n q, In (TName n q) vs -> knows T n q) Ts vss /\
      forall ss, says_each Ts vss ss -> forall n, (length vss < n)%nat -> main_ n input = (echo Ts ss ++ [ShowPrompt], Exited).
  Proof.
    intros HF HP. assert (R : real (s_ids (p_scanner (newParser idt_init input)))) by (exists []; constructor).
    exact (parses_program _ _ HP input (newParser idt_init input) (ps_start _ _ HF) eq_refl eq_refl R eq_refl).
  Qed.

  (** A panic of the console is one of [Parse]. *)
  Lemma main_panic n : forall input p, parsing input p -> snd (mainLoop n p) = Panicked -> exists q, parsing input q /\ Parse q = PCrash.
  Proof.
    induction n as [|n IH]; intros input p HP; [discriminate|]. cbn [mainLoop]. destruct (Parse p) as [s p'|p'|p'| |] eqn:E; try discriminate.
    - specialize (IH input p' (ps_stmt _ _ _ _ HP E)). destruct (mainLoop n p') as [l f]. exact IH.
    - specialize (IH input p' (ps_error _ _ _ HP E)). destruct (mainLoop n p') as [l f]. exact IH.
    - intros _. now exists p.
  Qed.
  Lemma main_panics n input : Forall (fun r => 0 <= r <= 1114111) input -> ~ In 92 input -> snd (main_ n input) = Panicked ->
    exists p t t', parsing input p /\ in_step input p t /\ t_parse (p_failed p) t = TCrash t' /\ set_null (map tok_of (t_past t')).
  Proof.
    intros HF HB E. destruct (main_panic n input _ (ps_start _ _ HF) E) as (q & HP & EC).
    destruct (panics_only HU input q HB HP) as (t & HS & K & _). destruct (K EC) as (t' & K1 & K2). now exists q, t, t'.
  Qed.
End Main.
