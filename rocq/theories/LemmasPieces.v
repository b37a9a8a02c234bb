(** Texts put together from pieces, and the tokens in them. *)

From Verif Require Import ModelPrint SpecPrint LemmasBase LemmasValue LemmasScanner LemmasScanTokens LemmasScan LemmasScanAll LemmasIdent LemmasGrammarLink.

Inductive piece : Set :=
| PSpace
| PPunct (r : Z)
| POp (w : list Z) (t : Z)
| PName (w : list Z)
| PNum (i : Z)
| PFloat (minus : bool) (w v : list Z) (q : Z)
| PStr (w : list Z).

Definition ptext (p : piece) : list Z :=
  match p with
  | PSpace => [32]
  | PPunct r => [r]
  | POp w _ => w
  | PName w => w
  | PNum i => map bz (format_int i)
  | PFloat minus w v _ => (if minus then [45] else []) ++ w ++ [46] ++ v
  | PStr w => [39] ++ w ++ [39]
  end.
Definition ptoken (p : piece) : list tokval :=
  match p with
  | PSpace => []
  | PPunct r => [TRune r]
  | POp _ t => [TRune t]
  | PName w => [TName (encode w) false]
  | PNum i => [TInteger i]
  | PFloat minus _ _ q => [TFloat (if minus then f_neg q else q)]
  | PStr w => [TString (encode w)]
  end.
Definition ptexts (ps : list piece) : list Z := flat_map ptext ps.
Definition ptokens (ps : list piece) : list tokval := flat_map ptoken ps.

(** What follows ends a word or a number. *)
Definition stops (ps : list piece) : Prop :=
  match ps with [] => True | PSpace :: _ | PPunct _ :: _ => True | _ => False end.
Definition dotted (ps : list piece) : Prop := match ps with PPunct r :: _ => r = 46 | _ => False end.
Definition spaced (ps : list piece) : Prop := match ps with PSpace :: _ => True | _ => False end.

Definition before (p : piece) (q : list piece) : Prop :=
  match p with
  | PSpace => ~ spaced q
  | PPunct _ => True
  | POp w _ => stops q /\ (q = [] -> w = [42])
  | PName _ => stops q
  | PNum _ => stops q /\ ~ dotted q
  | PFloat _ _ _ _ => stops q
  | PStr _ => stops q
  end.
Fixpoint loose (ps : list piece) : Prop :=
  match ps with [] => True | p :: q => before p q /\ loose q end.

Lemma loose_app a b : loose a -> loose b -> stops b -> b <> [] -> ~ dotted b -> (spaced b -> forall a', a <> a' ++ [PSpace]) -> loose (a ++ b).
Proof.
  intros Ha Hb S N D K. induction a as [|p a IH]; [exact Hb|]. cbn [app loose] in *. destruct Ha as [H1 H2]. split.
  - destruct a as [|p' a]; [|destruct p; cbn [before app stops dotted spaced] in *; intuition discriminate].
    cbn [app]. destruct p; cbn [before] in *; try tauto. intros Sp. exact (K Sp [] eq_refl).
  - apply IH; [exact H2|]. intros Sp a' E. apply (K Sp (p :: a')). now rewrite E.
Qed.

Section Lib.
  Context {X : FloatLib} {L : CaseLib} {U : RuneLib}.
  Context (HU : RuneLib_scan U).

  Definition op_text (w : list Z) (t : Z) : Prop :=
    (exists r, w = [r] /\ t = r /\ op_rune r) \/
    (exists a b, w = [a; b] /\ In (a, b, t)
      [(124, 124, -11); (60, 60, -12); (60, 61, -13); (60, 62, -14); (62, 62, -15); (62, 61, -16); (61, 61, -17); (33, 61, -18)]).

  Definition good (p : piece) : Prop :=
    match p with
    | PSpace => True
    | PPunct r => In r [46; 44; 40; 41; 64]
    | POp w t => op_text w t
    | PName w => exists r v, w = r :: v /\ name_start r /\ Forall name_rune v /\ Forall scalar w
    | PNum i => - 2 ^ 63 < i < 2 ^ 63
    | PFloat _ w v q => w <> [] /\ Forall (fun r => 48 <= r <= 57) w /\ Forall (fun r => 48 <= r <= 57) v /\ x_parse_float (encode (w ++ [46] ++ v)) = Some q
    | PStr w => Forall scalar w /\ ~ In 39 w
    end.

  Lemma name_rune_not r : 0 <= r < 128 -> ~ (65 <= r <= 90 \/ 97 <= r <= 122 \/ 48 <= r <= 57 \/ r = 95 \/ r = 36) -> ~ name_rune r.
  Proof.
    intros R N [H|[H|[H|H]]]; [apply (letter_ascii HU) in H; lia|apply (digit_ascii HU) in H; lia|lia|lia].
  Qed.
  Lemma digit_not r : 0 <= r < 128 -> ~ 48 <= r <= 57 -> x_is_digit r = true -> False.
  Proof. intros R N H. apply (digit_ascii HU) in H; lia. Qed.

  (** The first rune of what stops. *)
  Lemma stops_first q : Forall good q -> stops q -> ptexts q = [] \/ exists r l, ptexts q = r :: l /\ In r [32; 46; 44; 40; 41; 64] /\ (~ dotted q -> r <> 46).
  Proof.
    destruct q as [|p q]; [now left|]. intros G S. right. destruct p; try contradiction; cbn.
    - exists 32, (ptexts q). split; [reflexivity|]. split; [now left|]. discriminate.
    - inversion G; subst. exists r, (ptexts q). split; [reflexivity|]. split; [right; assumption|]. tauto.
  Qed.

  Lemma num_text i f : - 2 ^ 63 < i < 2 ^ 63 -> no_start (fun x => x_is_digit x = true \/ x = 46) f ->
    lexeme (map bz (format_int i)) (TInteger i) f f.
  Proof.
    intros R N. assert (I : is_i64 i) by (unfold is_i64; lia). destruct (format_int_text i I) as [ds D1 D2|ds D1 D2|ds D1 D2].
    - pose proof (lx_integer [] 1 ds f st_none D1 D2 ltac:(lia) N) as H. now rewrite Z.mul_1_l in H.
    - pose proof (lx_integer [43] 1 ds f st_plus D1 D2 ltac:(lia) N) as H. now rewrite Z.mul_1_l in H.
    - pose proof (lx_integer [45] (-1) ds f st_minus D1 D2 ltac:(lia) N) as H. now replace (-1 * dec_value ds) with (- dec_value ds) in H by lia.
  Qed.

  Lemma num_first i : - 2 ^ 63 < i < 2 ^ 63 -> exists r l, map bz (format_int i) = r :: l /\ (r = 45 \/ r = 43 \/ 48 <= r <= 57).
  Proof.
    intros R. assert (I : is_i64 i) by (unfold is_i64; lia). destruct (format_int_text i I) as [ds D1 D2|ds D1 D2|ds D1 D2].
    - destruct ds as [|d ds]; [contradiction|]. inversion D2; subst. exists (bz d), (map bz ds). split; [reflexivity|]. right. right. assumption.
    - exists 43, (map bz ds). split; [reflexivity|]. tauto.
    - exists 45, (map bz ds). split; [reflexivity|]. tauto.
  Qed.

  Lemma not_space r : 0 <= r < 128 -> r <> 32 -> ~ 9 <= r <= 13 -> x_is_space r = false.
  Proof. intros R N N'. destruct (x_is_space r) eqn:E; [|reflexivity]. apply (space_ascii HU) in E; lia. Qed.

  Lemma first_rune p : good p -> p <> PSpace -> exists r l, ptext p = r :: l /\ ~ space r.
  Proof.
    unfold space. destruct p as [|r|w t|w|i|minus w v q0|w]; intros G N; cbn in *.
    - contradiction.
    - exists r, []. split; [reflexivity|]. rewrite not_space; [discriminate|lia..].
    - destruct G as [(r & -> & _ & G)|(a & b & -> & G)].
      + exists r, []. split; [reflexivity|]. unfold op_rune in G. cbn in G. rewrite not_space; [discriminate|lia..].
      + exists a, [b]. split; [reflexivity|]. cbn in G. assert (K : 33 <= a < 128) by (repeat destruct G as [G|G]; try contradiction; injection G as <- <- <-; lia). rewrite not_space; [discriminate|lia..].
    - destruct G as (r & v & -> & G & _). exists r, v. split; [reflexivity|]. destruct G as [G| ->].
      + destruct HU as (_ & _ & K & _). destruct (K r G) as [_ ->]. discriminate.
      + rewrite not_space; [discriminate|lia..].
    - destruct (num_first i G) as (r & l & E & R). exists r, l. split; [exact E|]. rewrite not_space; [discriminate|lia..].
    - destruct G as (G1 & G2 & _). destruct minus; [exists 45, (w ++ [46] ++ v); split; [reflexivity|]; rewrite not_space; [discriminate|lia..]|].
      destruct w as [|r w]; [contradiction|]. inversion G2; subst. exists r, (w ++ [46] ++ v). split; [reflexivity|]. rewrite not_space; [discriminate|lia..].
    - exists 39, (w ++ [39]). split; [reflexivity|]. rewrite not_space; [discriminate|lia..].
  Qed.

  Lemma tokens_gap g l vs left : gap g -> tokens l vs left -> exists g', gap g' /\ tokens (g ++ l) vs (g' ++ left).
  Proof.
    intros G H. destruct H as [l|g1 w v f l vs left G1 Hx Ht].
    - exists g. split; [exact G|constructor].
    - exists []. split; [constructor|]. rewrite app_assoc. apply tks_more with (l := l); [now apply gap_app|exact Hx|exact Ht].
  Qed.

  Lemma quoted_plain w : ~ In 39 w -> quoted_body false w w.
  Proof.
    induction w as [|r w IH]; intros N; [constructor|]. cbn in N. constructor; [intros ->; tauto|discriminate|]. apply IH. tauto.
  Qed.

  Lemma pieces_tokens n : forall ps, (length ps <= n)%nat -> Forall good ps -> loose ps ->
    exists g, gap g /\ tokens (ptexts ps) (ptokens ps) g.
  Proof.
    induction n as [|n IH]; intros ps Hn G Hl.
    { destruct ps; [|cbn in Hn; lia]. exists []. split; constructor. }
    destruct ps as [|p q]; [exists []; split; constructor|]. cbn in Hn, Hl. destruct Hl as [Hb Hl]. inversion G as [|? ? Gp Gq]; subst.
    assert (Hq : exists g, gap g /\ tokens (ptexts q) (ptokens q) g) by (apply IH; [lia|assumption|assumption]).
    assert (One : forall w v, ptext p = w -> ptoken p = [v] -> lexeme w v (ptexts q) (ptexts q) ->
      exists g, gap g /\ tokens (ptexts (p :: q)) (ptokens (p :: q)) g).
    { intros w v E1 E2 Hx. destruct Hq as (g & Hg & Ht). exists g. split; [exact Hg|]. unfold ptexts, ptokens in *. cbn [flat_map]. rewrite E1, E2.
      apply (tks_more [] w v _ (flat_map ptext q)); [constructor|exact Hx|exact Ht]. }
    destruct p as [|r|w t|w|i|minus w v q0|w]; cbn in Gp, Hb.
    - destruct Hq as (g & Hg & Ht). destruct (tokens_gap [32] _ _ _ ltac:(constructor; [apply (space_ascii HU); lia|constructor]) Ht) as (g' & Hg' & Ht').
      exists (g' ++ g). split; [now apply gap_app|exact Ht'].
    - apply (One [r] (TRune r)); try reflexivity. now apply lx_punct.
    - destruct Hb as [Hs Ne]. apply (One w (TRune t)); try reflexivity.
      destruct (stops_first q Gq Hs) as [E|(r & l & E & Hr & _)].
      { destruct q as [|p q]; [|exfalso; destruct p; cbn in Hs; try contradiction; discriminate]. rewrite (Ne eq_refl) in *.
        destruct Gp as [(a & [= <-] & -> & Ho)|(a & b & [= ] & _)]. apply lx_op. split; [exact Ho|]. cbn [ptexts flat_map no_start]. repeat split; try (intros K; discriminate K); discriminate. }
      destruct Gp as [(a & -> & -> & Ho)|(a & b & -> & Ho)].
      + apply lx_op. rewrite E. split; [exact Ho|]. cbn [no_start].
        assert (R : 0 <= r < 128 /\ ~ 48 <= r <= 57 /\ r <> 45 /\ ~ op_rune r) by (unfold op_rune; cbn in Hr |- *; lia).
        destruct R as (R1 & R2 & R3 & R4). split; [intros _; exact (digit_not r R1 R2)|]. split.
        { intros _. split; [discriminate|]. intros [K|K]; [now apply (digit_not r)|lia]. }
        split; [intros _; discriminate|]. tauto.
      + now apply lx_op2.
    - destruct Gp as (r & v & -> & H1 & H2 & _). apply (One (r :: v) (TName (encode (r :: v)) false)); try reflexivity.
      destruct (stops_first q Gq Hb) as [E|(x & l & E & Hr & _)]; rewrite E; (apply lx_name; [exact H1|exact H2|..]); cbn [no_start]; try exact Logic.I; try tauto.
      + cbn in Hr. apply name_rune_not; lia.
      + intros _ _ <-. cbn in Hr. lia.
    - destruct Hb as [Hs Nd]. apply (One (map bz (format_int i)) (TInteger i)); try reflexivity. apply num_text; [exact Gp|].
      destruct (stops_first q Gq Hs) as [E|(x & l & E & Hr & Hx)]; rewrite E; cbn [no_start]; [exact Logic.I|]. specialize (Hx Nd). cbn in Hr.
      intros [K|K]; [apply (digit_not x); [lia..|exact K]|lia].
    - destruct Gp as (G1 & G2 & G3 & G4). apply (One ((if minus then [45] else []) ++ w ++ [46] ++ v) (TFloat (if minus then f_neg q0 else q0))); try reflexivity.
      assert (D : forall x, Forall (fun r => 48 <= r <= 57) x -> Forall (fun r => x_is_digit r = true) x) by (intros x; apply Forall_impl; intros r Hr; apply (digit_ascii HU); lia).
      assert (N : no_start (fun x => x_is_digit x = true) (ptexts q)).
      { destruct (stops_first q Gq Hb) as [E|(x & l & E & Hr & _)]; rewrite E; cbn [no_start]; [exact Logic.I|]. cbn in Hr. intros K. apply (digit_not x); [lia..|exact K]. }
      destruct minus; [exact (lx_float [45] (-1) w v q0 _ st_minus G1 (D _ G2) (D _ G3) G4 N)|exact (lx_float [] 1 w v q0 _ st_none G1 (D _ G2) (D _ G3) G4 N)].
    - destruct Gp as [Gs Gn].
      assert (Str : forall q', Forall good q' -> ~ spaced q' -> forall sp, (sp = [] -> match ptexts q' with 39 :: _ => False | _ => True end) -> sp = [] \/ sp = [32] ->
        quote_ends (sp ++ ptexts q') (ptexts q')).
      { intros q' G' N' sp K1 K2. exists sp. split; [reflexivity|]. split; [destruct K2 as [-> | ->]; [constructor|]; constructor; [apply (space_ascii HU); lia|constructor]|].
        destruct q' as [|p' q']; [split; exact Logic.I|]. inversion G' as [|? ? Gp' Gq']; subst.
        assert (Np : p' <> PSpace) by (intros ->; apply N'; exact Logic.I).
        destruct (first_rune p' Gp' Np) as (r & l & E & Hr). unfold ptexts in *. cbn [flat_map] in *. rewrite E in *. cbn [app no_start] in *. split; [exact Hr|].
        intros ->. destruct K2 as [-> | ->]; [now specialize (K1 eq_refl)|]. split; [discriminate|]. cbn. lia. }
      destruct q as [|p' q'].
      + destruct Hq as (g & Hg & Ht). exists g. split; [exact Hg|]. cbn [ptexts ptokens flat_map ptext ptoken app].
        apply (tks_more [] (39 :: w ++ [39]) (TString (encode w)) [] []); [constructor| |exact Ht]. apply lx_string; [now apply quoted_plain|].
        apply (Str [] ltac:(constructor) (fun H => H) []); [intros; exact Logic.I|now left].
      + destruct p'; try contradiction.
        * inversion Gq as [|? ? Gp' Gq']; subst. cbn in Hl. destruct Hl as [Nsp Hl]. cbn [length] in Hn. destruct (IH q') as (g & Hg & Ht); [lia|assumption|assumption|].
          exists g. split; [exact Hg|]. cbn [ptexts ptokens flat_map ptext ptoken]. fold (ptexts q') (ptokens q').
          apply (tks_more [] (39 :: w ++ [39]) (TString (encode w)) (32 :: ptexts q') (ptexts q')); [constructor| |exact Ht].
          apply lx_string; [now apply quoted_plain|]. apply (Str q' Gq' Nsp [32]); [discriminate|now right].
        * apply (One (39 :: w ++ [39]) (TString (encode w))); try reflexivity. apply lx_string; [now apply quoted_plain|].
          apply (Str (PPunct r :: q') Gq (fun H => H) []); [|now left]. intros _. inversion Gq as [|? ? Gp' _]; subst. cbn in Gp' |- *.
          destruct (Z.eq_dec r 39) as [->|Nr]; [lia|]. destruct r as [|r'|r']; try exact Logic.I. do 6 (destruct r' as [r'|r'|]; try exact Logic.I). contradiction Nr; reflexivity.
  Qed.

  Lemma pieces_statement ps : Forall good ps -> loose ps -> statement_text (ptexts ps) (ptokens ps) [].
  Proof.
    intros G Hl. destruct (pieces_tokens (length ps) ps (le_n _) G Hl) as (g & Hg & Ht). eapply (stx_eof _ _ g []); [now rewrite app_nil_r|exact Hg|constructor].
  Qed.

  Lemma ascii_scalar r : 0 <= r < 128 -> scalar r.
  Proof. unfold scalar. lia. Qed.

  Lemma good_scalar ps : Forall good ps -> Forall scalar (ptexts ps).
  Proof.
    induction 1 as [|p ps Hp H IH]; [constructor|]. unfold ptexts in *. cbn [flat_map]. apply Forall_app. split; [|exact IH].
    destruct p as [|r|w t|w|i|minus w v q0|w]; cbn in Hp |- *.
    - constructor; [apply ascii_scalar; lia|constructor].
    - constructor; [apply ascii_scalar; lia|constructor].
    - destruct Hp as [(r & -> & _ & G)|(a & b & -> & G)].
      + unfold op_rune in G. cbn in G. constructor; [apply ascii_scalar; lia|constructor].
      + cbn in G. assert (K : 0 <= a < 128 /\ 0 <= b < 128) by (repeat destruct G as [G|G]; try contradiction; injection G as <- <- <-; lia). destruct K as [K1 K2].
        constructor; [now apply ascii_scalar|]. constructor; [now apply ascii_scalar|constructor].
    - destruct Hp as (r & v & -> & _ & _ & G). exact G.
    - apply Forall_map. assert (I : is_i64 i) by (unfold is_i64; lia).
      assert (D : forall ds, Forall digit ds -> Forall (fun x => scalar (bz x)) ds) by (intros ds; apply Forall_impl; unfold digit; intros b Hb; apply ascii_scalar; lia).
      destruct (format_int_text i I) as [ds D1 D2|ds D1 D2|ds D1 D2]; try constructor; try (now apply D); apply ascii_scalar; vm_compute; intuition discriminate.
    - destruct Hp as (_ & G1 & G2 & _). assert (D : forall x, Forall (fun r => 48 <= r <= 57) x -> Forall scalar x) by (intros x; apply Forall_impl; intros r Hr; apply ascii_scalar; lia).
      apply Forall_app. split; [destruct minus; repeat constructor; lia|]. apply Forall_app. split; [now apply D|]. constructor; [apply ascii_scalar; lia|now apply D].
    - destruct Hp as [G _]. constructor; [apply ascii_scalar; lia|]. apply Forall_app. split; [exact G|]. constructor; [apply ascii_scalar; lia|constructor].
  Qed.

  (** Tokens keep their numbers in a later table. *)
  Lemma token_later t T v k : later t T -> token_in t v k -> token_in T v k.
  Proof.
    intros H. destruct 1 as [|n i E N|n i E N|n i E| | | | |]; try constructor; try assumption;
      match goal with |- ID _ ?n ?q = _ => pose proof (H n q) as K; unfold knows in K; rewrite E in K; exact (K eq_refl) end.
  Qed.
  Lemma tokens_later t T vs ts : later t T -> Forall2 (token_in t) vs ts -> Forall2 (token_in T) vs ts.
  Proof. intros H. induction 1; constructor; [eapply token_later; eassumption|assumption]. Qed.
End Lib.

Lemma encode_ascii s : Forall is_ascii s -> encode (map bz s) = s.
Proof.
  induction 1 as [|b s Hb H IH]; [reflexivity|]. cbn [map encode flat_map]. fold (encode (map bz s)). rewrite IH. unfold is_ascii in Hb. pose proof (bz_range b).
  rewrite utf8_ascii by lia. now rewrite zb_bz.
Qed.
Lemma format_int_ascii i : is_i64 i -> Forall is_ascii (format_int i).
Proof.
  intros I. assert (D : forall ds, Forall digit ds -> Forall is_ascii ds) by (intros ds; apply Forall_impl; unfold digit, is_ascii; intros; lia).
  destruct (format_int_text i I) as [ds D1 D2|ds D1 D2|ds D1 D2]; try constructor; try (now apply D); unfold is_ascii; vm_compute; reflexivity.
Qed.
