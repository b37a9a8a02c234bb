(** Property C70: all calls of [Parse], and the console. *)

From Verif Require Import ModelParserReader SpecParser SpecReader SpecFails LemmasBase LemmasScanner LemmasParserRun LemmasReader LemmasFails LemmasFailsParse LemmasFailsTold.

(** ** The reader of a COPY *)
Lemma drop_line u m : text u -> ~ In 10 u ->
  dropLineE u = ([], false) /\ dropLineE (u ++ 10 :: m) = (m, true) /\ dropLineE (u ++ tError :: m) = (m, false).
Proof.
  induction 1 as [|r l H Hl IH]; intros N; [now repeat split|]. destruct IH as (I1 & I2 & I3); [intros K; apply N; now right|]. cbn [app dropLineE].
  destruct (Z.eqb_spec r (-3)); [lia|]. destruct (Z.eqb_spec r 10) as [->|_]; [exfalso; apply N; now left|]. now repeat split.
Qed.
Theorem reader_line s u m : text u -> ~ In 10 u ->
  (s_in s = u -> RuneReaderE s = with_in s []) /\
  (s_in s = u ++ tError :: m -> RuneReaderE s = with_in s m) /\
  (s_in s = u ++ 10 :: m -> RuneReaderE s = {| s_in := m; s_unread := s_unread s; s_read := s_read s; s_line := s_line s + 1; s_column := 0; s_buffer := s_buffer s; s_ids := s_ids s |}).
Proof. intros F N. destruct (drop_line u m F N) as (D1 & D2 & D3). unfold RuneReaderE. repeat split; intros ->; now rewrite ?D1, ?D2, ?D3. Qed.

Theorem data_all n : forall s, (n <= length (s_in s))%nat -> exists s',
  data_reads n s = (map data_of (firstn n (s_in s)), s') /\ s_in s' = skipn n (s_in s) /\ s_line s' = s_line s + newlines (firstn n (s_in s)) /\ s_unread s' = s_unread s /\ s_read s' = s_read s /\
  s_buffer s' = s_buffer s /\ s_ids s' = s_ids s.
Proof.
  induction n as [|n IH]; intros s Hn; [exists s; cbn; repeat split; unfold newlines; cbn; lia|]. cbn [data_reads]. unfold runeReaderReadRuneE. destruct (s_in s) as [|r l] eqn:E; [cbn in Hn; lia|]. cbn [length] in Hn.
  cbn [firstn skipn map]. unfold newlines, data_of at 1. cbn [count_occ]. destruct (Z.eqb_spec r (-3)) as [->|N].
  - destruct (IH {| s_in := l; s_unread := s_unread s; s_read := s_read s; s_line := s_line s; s_column := s_column s; s_buffer := s_buffer s; s_ids := s_ids s |} ltac:(cbn; lia)) as (s' & K1 & K2 & K3 & K4). rewrite K1. exists s'. now repeat (split; [try reflexivity; assumption|]).
  - destruct (IH {| s_in := l; s_unread := s_unread s; s_read := s_read s; s_line := if r =? 10 then s_line s + 1 else s_line s; s_column := if r =? 10 then 0 else s_column s + 1; s_buffer := s_buffer s; s_ids := s_ids s |} ltac:(cbn; lia)) as (s' & K1 & K2 & K3 & K4).
    rewrite K1. exists s'. cbn [s_in s_line] in *. split; [reflexivity|]. split; [exact K2|]. split; [|exact K4]. rewrite K3. unfold newlines. destruct (Z.eqb_spec r 10) as [->|N']; destruct (Z.eq_dec _ 10); try lia.
Qed.
Theorem data_end s : s_in s = [] -> runeReaderReadRuneE s = (DEOF, s).
Proof. unfold runeReaderReadRuneE. now intros ->. Qed.

Section Session.
  Context {X : FloatLib} {L : CaseLib} {U : RuneLib} {B : BufLib} {P : PrintLib} (HU : RuneLib_scan U).

  Lemma start_rsane ids items : Forall item items -> rsane (scannerInit ids items).
  Proof. intros H. apply (reading_rsane HU). now constructor. Qed.
  Lemma start_between ids items : Forall item items -> between (newParser ids items) {| t_past := []; t_ahead := []; t_scanner := scannerInit ids items |}.
  Proof.
    intros H. split; [|split; [cbn; lia|intros []]]. split; [|split; [now apply start_rsane|split; [constructor|intros []]]]. unfold on_tape. cbn [newParser p_scanner t_scanner p_unscanned t_ahead length p_lookBack p_current t_past rev app].
    repeat (split; [reflexivity || lia|]). intros k Hk. destruct (below_three k Hk) as [->|[->| ->]]; reflexivity.
  Qed.
  Lemma set_between p t s : between p t -> rsane s -> (s_in (t_scanner t) = [] -> s_in s = []) -> between (set_scanner p s) (t_set t s).
  Proof. intros (H1 & H2 & H3) Hs Hi. split; [now apply set_s|now split]. Qed.

  Lemma parse_went_ p t : between p t -> went t (ParseE p).
  Proof. intros H. pose proof (parse_went HU p t H) as W. unfold ParseE. now destruct (ParseTreeE p). Qed.

  Lemma data_rsane s : rsane s -> rsane (snd (runeReaderReadRuneE s)) /\ (s_in s = [] -> s_in (snd (runeReaderReadRuneE s)) = []).
  Proof.
    intros H. unfold runeReaderReadRuneE. destruct (s_in s) as [|r l] eqn:E; [now split|]. split; [|discriminate]. destruct H as (H1 & H2 & H3). rewrite E in H1, H3.
    assert (K : s_unread s = true -> s_read s < 0 -> s_read s = -1 /\ l = []) by (intros K1 K2; destruct (H3 K1 K2) as [_ K]; discriminate K). inversion H1; subst.
    destruct (r =? -3); cbn [snd]; (split; [assumption|split; [assumption|exact K]]).
  Qed.

  Lemma feeding_between p : feeding p -> exists t, between p t.
  Proof.
    induction 1 as [ids items H|p s p' H [t IH] E|p p' H [t IH] E|p p' H [t IH] E|p T H [t IH]|p H [t IH]].
    - eexists. now apply start_between.
    - pose proof (parse_went_ p t IH) as W. rewrite E in W. destruct W as (t' & W & _). eauto.
    - pose proof (parse_went_ p t IH) as W. rewrite E in W. destruct W as (t' & W & _). eauto.
    - pose proof (parse_went_ p t IH) as W. rewrite E in W. destruct W as (t' & W & _). eauto.
    - exists (t_set t (set_ids (p_scanner p) T)). assert (Es : p_scanner p = t_scanner t) by apply IH. rewrite Es. apply set_between; [exact IH| |auto]. destruct IH as ((_ & IH & _) & _). exact IH.
    - exists (t_set t (snd (runeReaderReadRuneE (p_scanner p)))). assert (Es : p_scanner p = t_scanner t) by apply IH. rewrite Es. assert (Hs : rsane (t_scanner t)) by apply IH. destruct (data_rsane _ Hs) as [K1 K2]. now apply set_between.
  Qed.
  Lemma between_rsane p t : between p t -> rsane (p_scanner p).
  Proof. intros (((-> & _) & H & _) & _). exact H. Qed.

  Theorem feed_failed p u m : feeding p -> p_in p = u ++ tError :: m -> text u -> unreached p u m (ParseE p) \/ reached m (ParseE p).
  Proof. intros H. destruct (feeding_between p H) as [t Ht]. now apply (parse_told HU p t). Qed.

  Theorem feed_total p : feeding p -> ParseE p <> PStuck /\ forall q, ParseE p = PEOF q -> text (p_in p) /\ p_in q = [].
  Proof.
    intros H. destruct (feeding_between p H) as [t Ht]. pose proof (parse_went_ p t Ht) as W. split; [intros E; now rewrite E in W|]. intros q E. split; [|rewrite E in W; now destruct W as (t' & _ & W)].
    destruct (item_split _ (proj1 (between_rsane _ _ Ht))) as [F|(u & m & E1 & F & _)]; [exact F|]. destruct (feed_failed p u m H E1 F) as [K|K]; rewrite E in K; contradiction.
  Qed.

  Lemma parse_same p : whole p -> ParseE p = Parse p /\ whole_r (ParseE p).
  Proof.
    intros W. destruct (tree_same HU parse_fuel p W) as [K1 K2]. rewrite <- tree_isE, <- ?tree_is in *. unfold ParseE, Parse. rewrite <- K1. split; [reflexivity|]. now destruct (ParseTreeE p).
  Qed.
  Theorem feed_same p : feeding p -> text (p_in p) -> ParseE p = Parse p.
  Proof. intros H F. destruct (feeding_between p H) as [t Ht]. apply parse_same. split; [exact (between_rsane _ _ Ht)|exact F]. Qed.

  (** ** The console *)
  Lemma loop_same n : forall p, whole p -> mainLoopE n p = mainLoop n p.
  Proof.
    induction n as [|n IH]; intros p W; [reflexivity|]. cbn [mainLoopE mainLoop]. destruct (parse_same p W) as [<- K]. destruct (ParseE p) as [s q|q|q| |]; cbn [whole_r] in K; try reflexivity; now rewrite (IH q K).
  Qed.
  Theorem console_same n items : text items -> main_E n items = main_ n items.
  Proof. intros F. apply loop_same. split; [|exact F]. apply start_rsane. revert F. apply Forall_impl. now right. Qed.

  Lemma loop_ends k : forall p t, between p t -> (mu t <= k)%nat ->
    exists out f, f <> Running /\ (length out <= 2 * k + 1)%nat /\ forall n, (k < n)%nat -> mainLoopE n p = (out, f).
  Proof.
    assert (One : forall k p f, f <> Running -> (forall n, mainLoopE (S n) p = ([ShowPrompt], f)) -> exists out f, f <> Running /\ (length out <= 2 * k + 1)%nat /\ forall n, (k < n)%nat -> mainLoopE n p = (out, f)).
    { intros j p f Hf H. exists [ShowPrompt], f. split; [exact Hf|]. split; [cbn; lia|]. intros [|n] Hn; [lia|]. apply H. }
    induction k as [|k IH]; intros p t H Hk; pose proof (parse_went_ p t H) as W; destruct (ParseE p) as [s q|q|q| |] eqn:E; cbn [went] in W; try contradiction;
      try (destruct W as (t' & _ & W); lia); try (apply (One _ p Exited); [discriminate|]; intros n; cbn [mainLoopE]; now rewrite E); try (apply (One _ p Panicked); [discriminate|]; intros n; cbn [mainLoopE]; now rewrite E);
      destruct W as (t' & W1 & W2); destruct (IH q t' W1 ltac:(lia)) as (out & f & Hf & Hl & Hn).
    - exists (ShowPrompt :: ShowLine (println (s_ids (p_scanner q)) s) :: out), f. split; [exact Hf|]. split; [cbn [length]; lia|]. intros [|n] Hk'; [lia|]. cbn [mainLoopE]. rewrite E, (Hn n) by lia. reflexivity.
    - exists (ShowPrompt :: ShowError :: out), f. split; [exact Hf|]. split; [cbn [length]; lia|]. intros [|n] Hk'; [lia|]. cbn [mainLoopE]. rewrite E, (Hn n) by lia. reflexivity.
  Qed.
  Theorem console_ends items : Forall item items ->
    exists out f, f <> Running /\ (length out <= 2 * length items + 1)%nat /\ forall n, (length items < n)%nat -> main_E n items = (out, f).
  Proof. intros H. apply (loop_ends (length items) _ _ (start_between idt_init items H)). rewrite mu_is. cbn. lia. Qed.

  Lemma loop_goes n : forall p t, between p t -> (2 * n <= S (fails (p_in p)))%nat -> snd (mainLoopE n p) <> Exited.
  Proof.
    induction n as [|n IH]; intros p t H Hn; [discriminate|]. cbn [mainLoopE]. pose proof (parse_went_ p t H) as W.
    pose proof (tree_count HU parse_fuel p (between_rsane _ _ H)) as C. rewrite <- tree_isE in C. assert (C' : counted p (ParseE p)) by (unfold ParseE; now destruct (ParseTreeE p)).
    destruct (item_split _ (proj1 (between_rsane _ _ H))) as [F|(u & m & E1 & F & _)]; [unfold p_in in Hn; rewrite (fails_text _ F) in Hn; lia|]. pose proof (parse_told HU p t u m H E1 F) as T.
    destruct (ParseE p) as [s q|q|q| |]; cbn [went counted] in *; try discriminate; try (now destruct T).
    - destruct W as (t' & W1 & W2). specialize (IH q t' W1 ltac:(lia)). now destruct (mainLoopE n q).
    - destruct W as (t' & W1 & W2). specialize (IH q t' W1 ltac:(lia)). now destruct (mainLoopE n q).
  Qed.
  Theorem console_goes n items : Forall item items -> (2 * n <= S (fails items))%nat -> snd (main_E n items) <> Exited.
  Proof. intros H Hn. exact (loop_goes n _ _ (start_between idt_init items H) Hn). Qed.

  Lemma loop_again n : forall p m, p_unscanned p = 0%nat -> s_unread (p_scanner p) = false -> p_in p = repeat tError n ++ m ->
    mainLoopE n p = (concat (repeat [ShowPrompt; ShowError] n), Running).
  Proof.
    induction n as [|n IH]; intros p m Hu Hr E; [reflexivity|]. cbn [mainLoopE repeat concat]. unfold ParseE, ParseTreeE, scanRuneE. rewrite Hu.
    destruct (read_again (p_scanner p) (nth ((p_current p + 1) mod lookBackAmount) (p_lookBack p) c_zero) (repeat tError n ++ m) Hr E) as (s' & c' & -> & (T1 & T2 & T3) & T4).
    rewrite (error_tok _ _ T1 T2). now rewrite (IH {| p_scanner := s'; p_lookBack := set_nth ((p_current p + 1) mod lookBackAmount) c' (p_lookBack p); p_current := (p_current p + 1) mod lookBackAmount; p_unscanned := 0; p_failed := p_failed p |} m eq_refl T3 T4).
  Qed.
  Theorem console_again n m : main_E n (repeat tError n ++ m) = (concat (repeat [ShowPrompt; ShowError] n), Running).
  Proof. now apply (loop_again n _ m). Qed.
End Session.
