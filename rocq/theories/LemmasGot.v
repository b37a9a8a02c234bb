(** Proofs for property C73. *)

From Verif Require Import SpecInfo SpecPrint LemmasBase LemmasCast LemmasInfo LemmasPrint LemmasPlace SpecPlace ModelGot SpecGot.
From Verif Require SpecCast.

Lemma operator_string t : operatorString t = None <-> ~ -18 <= t <= -11.
Proof.
  unfold operatorString, operators. cbn [find fst snd].
  repeat match goal with |- context [?a =? t] => destruct (Z.eqb_spec a t) as [<-|?]; [split; [discriminate|intros H; exfalso; apply H; lia]|] end.
  split; [intros _; lia|reflexivity].
Qed.

Lemma operator_some t w : operatorString t = Some w -> exists s, w = str s /\
  In (t, s) [(-11, "||"); (-12, "<<"); (-13, "<="); (-14, "<>"); (-15, ">>"); (-16, ">="); (-17, "=="); (-18, "!=")]%string.
Proof.
  unfold operatorString, operators. cbn [find fst snd].
  repeat match goal with |- context [?a =? t] => destruct (Z.eqb_spec a t) as [<-|?];
    [intros [= <-]; eexists; split; [|cbn [In]; first [left; reflexivity|right; left; reflexivity|do 2 right; left; reflexivity|do 3 right; left; reflexivity|do 4 right; left; reflexivity|do 5 right; left; reflexivity|do 6 right; left; reflexivity|do 7 right; left; reflexivity]]; reflexivity|] end.
  discriminate.
Qed.

Lemma code_point_dec t : code_point t \/ ~ code_point t.
Proof. unfold code_point. lia. Qed.

Lemma format_says t : is_i64 t -> token_says t (tokenFormat t).
Proof.
  intros H. unfold tokenFormat. destruct (Z.ltb_spec 0 t) as [P|P].
  - destruct (code_point_dec t) as [C|C].
    + apply ts_rune; [assumption..|]. now apply encode_char.
    + apply ts_no_rune; [assumption..|]. now apply encode_other.
  - destruct (operatorString t) as [w|] eqn:E.
    + apply operator_some in E. destruct E as (s & -> & I). now apply ts_operator.
    + apply operator_string in E. apply ts_number; [assumption..|]. now apply format_int_decimal.
Qed.

Lemma utf8_other w : SpecCast.utf8_char 65533 w -> w = utf8_encode 65533.
Proof. intros H. apply (encode_char 65533 w); [unfold code_point; lia|exact H]. Qed.

Lemma says_format t w : is_i64 t -> token_says t w -> w = tokenFormat t.
Proof.
  intros H [v P C K|v P C K|s I|n P N D].
  - unfold tokenFormat. replace (0 <? t) with true by lia. f_equal. now apply encode_char.
  - unfold tokenFormat. replace (0 <? t) with true by lia. f_equal. rewrite (utf8_other v K).
    unfold utf8_encode. unfold code_point in C. replace ((t <? 0) || (1114111 <? t) || ((55296 <=? t) && (t <=? 57343))) with true by lia. reflexivity.
  - cbn [In] in I. repeat (destruct I as [I|I]; [injection I as <- <-; reflexivity|]). destruct I.
  - unfold tokenFormat. replace (0 <? t) with false by lia. rewrite (proj2 (operator_string t) N). f_equal. now apply decimal_spec.
Qed.

Section Got.
  Context {W : GotLib}.

  Lemma found_exact T c t : is_i64 (c_token c) -> is_i64 (c_integer c) -> (got T c = Some t <-> found_says T c t).
  Proof.
    intros Ht Hi. unfold got. split.
    - destruct (Z.eqb_spec (c_token c) tEOF) as [E|N1]; [intros [= <-]; now apply fs_eof|].
      destruct (Z.eqb_spec (c_token c) tEndOfStatement) as [E|N2]; [intros [= <-]; now apply fs_end|].
      destruct (Z.eqb_spec (c_token c) tError) as [E|N3]; [destruct (c_error c) eqn:Ee; intros [= <-]; apply fs_error; [assumption|now rewrite Ee]|].
      destruct (Z.eqb_spec (c_token c) tIdentifier) as [E|N4]; [intros [= <-]; now apply fs_identifier|].
      destruct (Z.eqb_spec (c_token c) tReserved) as [E|N5]; [intros [= <-]; now apply fs_reserved|].
      destruct (Z.eqb_spec (c_token c) tString) as [E|N6]; [intros [= <-]; now apply fs_string|].
      destruct (Z.eqb_spec (c_token c) tBytes) as [E|N7]; [intros [= <-]; now apply fs_bytes|].
      destruct (Z.eqb_spec (c_token c) tInteger) as [E|N8]; [intros [= <-]; apply fs_integer; [assumption|now apply format_int_decimal]|].
      destruct (Z.eqb_spec (c_token c) tFloat) as [E|N9]; [intros [= <-]; now apply fs_float|].
      intros [= <-]. apply fs_token; [lia|now apply format_says].
    - intros [E|E|E Ee|E|E|E|E|n E D|E|t0 N D]; try (rewrite E; reflexivity).
      + rewrite E. cbn [Z.eqb Pos.eqb]. destruct (c_error c); [reflexivity|now contradiction Ee].
      + rewrite E. cbn [Z.eqb Pos.eqb]. do 2 f_equal. symmetry. now apply decimal_spec.
      + do 9 (match goal with |- context [c_token c =? ?a] => replace (c_token c =? a) with false by lia end).
        f_equal. symmetry. now apply says_format.
  Qed.

  Lemma found_nil T c : got T c = None <-> tok_of c = KError false.
  Proof.
    unfold got, tok_of.
    repeat match goal with |- context [c_token c =? ?a] => destruct (c_token c =? a); try (split; discriminate) end.
    destruct (c_error c); split; try discriminate; reflexivity.
  Qed.

  Lemma tok_nil c : tok_of c = KError false <-> no_error c.
  Proof.
    unfold no_error, tok_of.
    repeat match goal with |- context [c_token c =? ?a] => destruct (Z.eqb_spec (c_token c) a) as [->|?]; try (split; [discriminate|intros [? _]; discriminate]) end.
    - destruct (c_error c); split; try discriminate; try reflexivity; [intros [_ ?]; discriminate|intros _; split; reflexivity].
    - split; [discriminate|intros [? _]; contradiction].
  Qed.

  Lemma found_none T c : got T c = None <-> no_error c.
  Proof. rewrite found_nil. apply tok_nil. Qed.

  Lemma tok_error c b : tok_of c = KError b -> c_token c = -3.
  Proof.
    unfold tok_of.
    repeat match goal with |- context [c_token c =? ?a] => destruct (Z.eqb_spec (c_token c) a) as [->|?]; try discriminate end.
    intros _. reflexivity.
  Qed.

  Lemma expected_tok e c : expected e c <-> match e with
    | XReserved ids => exists id, tok_of c = KReserved id /\ In id ids
    | XIdentifier _ => exists id, tok_of c = KIdent id
    | XTokens rs => In (rune_of (tok_of c)) rs
    | XInteger lo hi => exists i, tok_of c = KInteger i /\ lo <= i <= hi
    | XEnd => tok_of c = KEOF \/ tok_of c = KEnd
    end.
  Proof.
    unfold expected, tok_of.
    repeat match goal with |- context [c_token c =? ?a] => destruct (Z.eqb_spec (c_token c) a) as [->|?];
      [destruct e; cbn [rune_of];
       first [tauto | split; [intros [H ?]; first [discriminate H|eauto] | intros (i & H & ?); first [discriminate H|injection H as <-; auto]]
             | split; [intros H; first [discriminate H|eauto] | intros (i & H); first [discriminate H|reflexivity]]
             | split; [intros [H|H]; discriminate H|intros [H|H]; discriminate H]
             | split; auto]|] end.
    destruct e; cbn [rune_of]; first [tauto | split; [intros [H ?]; contradiction|intros (i & H & ?); discriminate H] | split; [intros H; contradiction|intros (i & H); discriminate H] | split; [intros [H|H]; contradiction|intros [H|H]; discriminate H]].
  Qed.

  Lemma decimal_value_unique t a b : SpecCast.decimal a t -> SpecCast.decimal b t -> a = b.
  Proof.
    intros H K. destruct H as [|d r D N F|d r D N F]; inversion K; subst; try reflexivity; try (now contradiction N);
      match goal with H : digit x2d |- _ => destruct H as [H _]; exfalso; revert H; vm_compute; intros H; now apply H | _ => idtac end.
    all: try match goal with H : x30 <> x30 |- _ => now contradiction H end.
  Qed.

  Lemma rune_inj a b : code_point a -> code_point b -> utf8_encode a = utf8_encode b -> a = b.
  Proof.
    intros A C E. assert (K : [a] = [b]); [|now injection K].
    apply encode_injective; [apply Forall_cons; [unfold code_point in A, C; unfold scalar; lia|apply Forall_nil]..|]. unfold encode. cbn [flat_map]. now rewrite E.
  Qed.

  Lemma format_int_inj a b : is_i64 a -> is_i64 b -> format_int a = format_int b -> a = b.
  Proof.
    intros A C E. pose proof (format_int_decimal a A) as D1. pose proof (format_int_decimal b C) as D2. rewrite E in D1.
    exact (decimal_value_unique _ _ _ D1 D2).
  Qed.

  (** The texts for tokens, without those of parameters. *)
  Lemma token_tells a b : is_i64 a -> is_i64 b -> a <> -10 -> b <> -10 -> ~ -9 <= a <= -1 -> ~ -9 <= b <= -1 ->
    (0 < a -> code_point a) -> (0 < b -> code_point b) -> tokenFormat a = tokenFormat b -> a = b.
  Proof.
    intros Ha Hb Na Nb Ra Rb Ca Cb. unfold tokenFormat. destruct (Z.ltb_spec 0 a) as [Pa|Pa], (Z.ltb_spec 0 b) as [Pb|Pb].
    - intros E. apply app_inv_head in E. apply rune_inj; auto.
    - destruct (operatorString b) as [w|] eqn:E; [|discriminate]. apply operator_some in E. destruct E as (s & -> & I).
      cbn [In] in I. repeat (destruct I as [I|I]; [injection I as <- <-; discriminate|]). destruct I.
    - destruct (operatorString a) as [w|] eqn:E; [|discriminate]. apply operator_some in E. destruct E as (s & -> & I).
      cbn [In] in I. repeat (destruct I as [I|I]; [injection I as <- <-; discriminate|]). destruct I.
    - destruct (operatorString a) as [w|] eqn:E, (operatorString b) as [v|] eqn:F.
      + apply operator_some in E. destruct E as (s & -> & I). apply operator_some in F. destruct F as (s' & -> & J).
        cbn [In] in I, J. repeat (destruct I as [I|I]; [injection I as <- <-; repeat (destruct J as [J|J]; [injection J as <- <-; first [reflexivity|discriminate]|]); destruct J|]). destruct I.
      + apply operator_some in E. destruct E as (s & -> & I).
        cbn [In] in I. repeat (destruct I as [I|I]; [injection I as <- <-; discriminate|]). destruct I.
      + apply operator_some in F. destruct F as (s & -> & I).
        cbn [In] in I. repeat (destruct I as [I|I]; [injection I as <- <-; discriminate|]). destruct I.
      + intros K. apply app_inv_head in K. now apply format_int_inj.
  Qed.

  (** No text for a token is as one of a name, a constant or an end. *)
  Definition head_of (w : bytes) : bytes := firstn 2 w.
  Lemma token_head a : is_i64 a -> exists x y r, tokenFormat a = x :: y :: r /\
    In [x; y] (map str ["ru"; "to"; "||"; "<<"; "<="; "<>"; ">>"; ">="; "=="; "!="]%string).
  Proof.
    intros Ha. destruct (format_says a Ha) as [v P C K|v P C K|s I|n P N D].
    - do 3 eexists. split; [reflexivity|]. now left.
    - do 3 eexists. split; [reflexivity|]. now left.
    - cbn [In] in I. repeat (destruct I as [I|I]; [injection I as <- <-; do 3 eexists; split; [reflexivity|cbn [map In]; tauto]|]). destruct I.
    - do 3 eexists. split; [reflexivity|]. cbn [map In]. tauto.
  Qed.

  Lemma found_tells T c d t : GotLib_ok -> is_i64 (c_token c) -> is_i64 (c_integer c) -> is_i64 (c_token d) -> is_i64 (c_integer d) ->
    telling c -> telling d -> got T c = Some t -> got T d = Some t -> same_token T c d.
  Proof.
    intros Q Hc Ic Hd Id (Nc & Cc) (Nd & Cd) Gc Gd. cbn [In] in Nc, Nd.
    assert (NT : forall a k r, is_i64 a -> tokenFormat a = str k ++ r -> In (firstn 2 (str k)) (map str ["en"; "id"; "re"; "st"; "in"]%string) -> length (firstn 2 (str k)) = 2%nat -> False).
    { intros a k r Ha E I Lk. destruct (token_head a Ha) as (x & y & w & E' & J). rewrite E in E'.
      destruct (str k) as [|x' [|y' k']]; try discriminate Lk. cbn [app] in E'. injection E' as -> -> _. cbn [firstn] in I.
      cbn [map In] in I, J. repeat (destruct I as [I|I]; [rewrite <- I in J; repeat (destruct J as [J|J]; [discriminate J|]); destruct J|]). destruct I. }
    apply found_exact in Gc; [|assumption..].
    unfold got in Gd. unfold same_token.
    destruct Gc as [E|E|E Ee|E|E|E|E|n E D|E|t0 N D]; try (exfalso; apply Nc; lia).
    all: try (apply decimal_spec in D; [|assumption]; subst n).
    all: try (apply says_format in D; [|assumption]; subst t0).
    all: destruct (Z.eqb_spec (c_token d) tEOF) as [F|N1]; [try (injection Gd as Gd; discriminate Gd)|
      destruct (Z.eqb_spec (c_token d) tEndOfStatement) as [F|N2]; [try (injection Gd as Gd; discriminate Gd)|
      destruct (Z.eqb_spec (c_token d) tError) as [F|N3]; [exfalso; apply Nd; lia|
      destruct (Z.eqb_spec (c_token d) tIdentifier) as [F|N4]; [try (injection Gd as Gd; discriminate Gd)|
      destruct (Z.eqb_spec (c_token d) tReserved) as [F|N5]; [try (injection Gd as Gd; discriminate Gd)|
      destruct (Z.eqb_spec (c_token d) tString) as [F|N6]; [try (injection Gd as Gd; discriminate Gd)|
      destruct (Z.eqb_spec (c_token d) tBytes) as [F|N7]; [exfalso; apply Nd; lia|
      destruct (Z.eqb_spec (c_token d) tInteger) as [F|N8]; [try (injection Gd as Gd; discriminate Gd)|
      destruct (Z.eqb_spec (c_token d) tFloat) as [F|N9]; [exfalso; apply Nd; lia|]]]]]]]]].
    all: apply (f_equal (fun o => match o with Some x => x | None => [] end)) in Gd; cbv beta iota in Gd.
    all: try (exfalso; refine (NT _ _ _ Hd _ _ _); [rewrite Gd; first [reflexivity|symmetry; apply app_nil_r]|cbn; tauto|reflexivity]).
    all: try (exfalso; refine (NT _ _ _ Hc _ _ _); [rewrite <- Gd; first [reflexivity|symmetry; apply app_nil_r]|cbn; tauto|reflexivity]).
    all: try (apply app_inv_head in Gd).
    - repeat split; lia.
    - repeat split; lia.
    - repeat split; try lia. intros _. now symmetry.
    - repeat split; try lia. intros _. now symmetry.
    - repeat split; try lia. intros _. apply Q. now symmetry.
    - repeat split; try lia. intros _. symmetry. now apply format_int_inj.
    - assert (K : c_token c = c_token d); [|repeat split; lia]. apply token_tells; try assumption; try lia. now symmetry.
  Qed.

  (** ** What was expected *)

  Lemma listed_snoc l t s : listed l t -> listed (l ++ [s]) (t ++ str ", " ++ s).
  Proof.
    intros H. induction H as [x|x l t H IH]; cbn [app].
    - apply li_more. apply li_one.
    - rewrite <- !app_assoc. apply li_more. exact IH.
  Qed.

  Lemma loop_listed n : forall r l t, listed l t -> (length l + S (length r) = n)%nat -> forall s,
    exists a, expectedLoop (length l) n (r ++ [s]) t = a /\ alternatives (l ++ r ++ [s]) a.
  Proof.
    intros r. induction r as [|x r IH]; intros l t H E s; cbn [app expectedLoop length] in *.
    - replace (length l =? n - 1)%nat with true by (symmetry; apply Nat.eqb_eq; lia).
      eexists. split; [reflexivity|]. rewrite <- app_assoc. now apply al_more.
    - replace (length l =? n - 1)%nat with false by (symmetry; apply Nat.eqb_neq; lia).
      assert (0 < length l)%nat by (destruct H; cbn; lia). replace (0 <? length l)%nat with true by (symmetry; apply Nat.ltb_lt; lia).
      rewrite <- app_assoc. destruct (IH (l ++ [x]) (t ++ str ", " ++ x) (listed_snoc _ _ _ H)) with (s := s) as (a & Ea & Ha).
      { rewrite app_length. cbn [length]. lia. }
      exists a. rewrite app_length in Ea. cbn [length] in Ea. rewrite Nat.add_1_r in Ea. split; [exact Ea|]. now rewrite <- app_assoc in Ha.
  Qed.

  Lemma expected_alternatives l : alternatives l (expectedText l).
  Proof.
    destruct l as [|x l]; [apply al_none|]. destruct l as [|y l _] using rev_ind; [apply al_one|].
    assert (E : expectedText (x :: l ++ [y]) = expectedLoop 1 (length (x :: l ++ [y])) (l ++ [y]) x).
    { unfold expectedText. destruct l as [|z l]; cbn [app length expectedLoop]; reflexivity. }
    rewrite E. destruct (loop_listed (length (x :: l ++ [y])) l [x] x (li_one x)) with (s := y) as (a & Ea & Ha).
    { cbn [length]. rewrite app_length. cbn [length]. lia. }
    change (length [x]) with 1%nat in Ea. rewrite Ea. exact Ha.
  Qed.

  Lemma alternatives_one l : forall a b, alternatives l a -> alternatives l b -> a = b.
  Proof.
    assert (One : forall l a, listed l a -> forall b, listed l b -> a = b).
    { intros l0 a H. induction H as [s|s l0 t H IH]; intros b K; inversion K; subst; try reflexivity; try (now inversion H).
      - match goal with H : listed [] _ |- _ => inversion H end.
      - f_equal. f_equal. now apply IH. }
    intros a b H K. destruct H as [|s|l t s H].
    - inversion K; [reflexivity|]. now destruct l.
    - inversion K; [reflexivity|]. destruct l as [|? [|]]; try discriminate. match goal with H : listed [] _ |- _ => inversion H end.
    - inversion K as [E|s' E|l' t' s' H' E].
      + now destruct l.
      + destruct l as [|? [|]]; try discriminate E. inversion H.
      + apply app_inj_tail in E. destruct E as [-> ->]. now rewrite (One _ _ H _ H').
  Qed.

  Lemma message_says T e g : match e with XTokens rs => Forall is_i64 rs | XInteger lo hi => is_i64 lo /\ is_i64 hi | _ => True end ->
    expected_says T g e (expectedMessage T e ++ g).
  Proof.
    destruct e as [ids|msg|rs|lo hi|]; intros H; cbn [expectedMessage]; rewrite <- ?app_assoc.
    - apply ex_reserved. apply expected_alternatives.
    - apply ex_identifier.
    - apply (ex_tokens T g rs (map tokenFormat rs)); [|apply expected_alternatives]. induction H; cbn [map]; constructor; [now apply format_says|assumption].
    - apply ex_integer; now apply format_int_decimal.
    - apply ex_end.
  Qed.
End Got.

Section Run.
  Context {X : FloatLib} {L : CaseLib} {U : RuneLib} {B : BufLib} {P : PrintLib} {W : GotLib}.

  Lemma error_got {A B'} (k : A -> act B') p : p_tok p <> KError false -> run (abind errorGot k) p = Failed p.
  Proof. intros H. unfold errorGot. cbn [abind run]. destruct (p_tok p) as [| |[|]| | | | | | | |]; try reflexivity. now contradiction H. Qed.

  Lemma expect_when e p q : scanRune p = Some (q, false) -> ~ no_error (p_sctx q) ->
    (expected e (p_sctx q) /\ run (expectation e) p = Done tt q) \/ (~ expected e (p_sctx q) /\ run (expectation e) p = Failed q).
  Proof.
    intros S N. rewrite <- tok_nil in N. rewrite expected_tok. fold (p_tok q) in *. destruct e as [ids|msg|rs|lo hi|]; cbn [expectation].
    - unfold expectReserved, scan_. cbn [abind run]. rewrite S. cbn [run]. destruct (is_reserved (p_tok q) ids) eqn:E.
      + left. split; [|reflexivity]. unfold is_reserved in E. destruct (p_tok q); try discriminate E. apply existsb_exists in E. destruct E as (x & I & E). apply Z.eqb_eq in E. subst. eauto.
      + right. split; [|now apply error_got]. intros (i & Ei & I). rewrite Ei in E. cbn in E. rewrite (proj2 (existsb_exists _ _)) in E; [discriminate|]. exists i. split; [exact I|apply Z.eqb_refl].
    - unfold expectIdentifier, scan_. cbn [abind run]. rewrite S. destruct (p_tok q) eqn:E; try (left; split; [eauto|reflexivity]);
        (right; split; [intros (i0 & Ei); discriminate Ei|apply error_got; rewrite E; exact N]).
    - unfold expectTokens, scan_. cbn [abind run]. rewrite S. destruct (existsb (Z.eqb (rune_of (p_tok q))) rs) eqn:E.
      + left. split; [|reflexivity]. apply existsb_exists in E. destruct E as (x & I & E). apply Z.eqb_eq in E. now subst.
      + right. split; [|now apply error_got]. intros I. rewrite (proj2 (existsb_exists _ _)) in E; [discriminate|]. eexists. split; [exact I|apply Z.eqb_refl].
    - unfold expectInteger, scan_. cbn [abind run]. rewrite S. destruct (p_tok q) eqn:E;
        try (right; split; [intros (i0 & Ei & _); discriminate Ei|apply error_got; rewrite E; exact N]).
      destruct ((i <? lo) || (hi <? i)) eqn:R.
      + right. split; [intros (j & Ej & K); injection Ej as <-; lia|]. apply error_got. rewrite E. exact N.
      + left. split; [exists i; split; [reflexivity|lia]|reflexivity].
    - unfold expectEndOfStatement, scan_. cbn [abind run]. rewrite S. destruct (p_tok q) eqn:E; try (left; split; [tauto|reflexivity]);
        (right; split; [intros [K|K]; discriminate K|]); pose proof (error_got (fun u : unit => ARet u) q) as G; rewrite E in G; specialize (G N); unfold errorGot in G |- *; cbn [abind run] in G |- *; rewrite E in G |- *; first [exact G|destruct some; [reflexivity|now contradiction N]].
  Qed.

  Lemma expect_error fn e p q : run (expectation e) p = Failed q -> c_token (p_sctx q) <> -3 ->
    is_i64 (c_line (p_sctx q)) -> is_i64 (c_column (p_sctx q)) -> is_i64 (c_token (p_sctx q)) -> is_i64 (c_integer (p_sctx q)) ->
    match e with XTokens rs => Forall is_i64 rs | XInteger lo hi => is_i64 lo /\ is_i64 hi | _ => True end ->
    exists place g m, expectError fn e p = Some (place ++ m) /\ error_says fn (c_line (p_sctx q)) (c_column (p_sctx q)) place /\
      found_says (s_ids (p_scanner q)) (p_sctx q) g /\ expected_says (s_ids (p_scanner q)) g e m.
  Proof.
    intros R N Hl Hc Ht Hi He. unfold expectError. rewrite R. destruct (got (s_ids (p_scanner q)) (p_sctx q)) as [g|] eqn:G.
    - exists (errorPrefix fn (p_sctx q)), g, (expectedMessage (s_ids (p_scanner q)) e ++ g). split; [|split; [|split]].
      + unfold p_tok. destruct (tok_of (p_sctx q)) eqn:E; try reflexivity. apply tok_error in E. contradiction.
      + now apply prefix_says.
      + now apply found_exact.
      + now apply message_says.
    - apply found_none in G. destruct G as [G _]. contradiction.
  Qed.
End Run.

Lemma format_exact t w : is_i64 t -> (tokenFormat t = w <-> token_says t w).
Proof. intros H. split; [intros <-; now apply format_says|intros K; symmetry; now apply says_format]. Qed.

Lemma list_exact l a : expectedText l = a <-> alternatives l a.
Proof. split; [intros <-; apply expected_alternatives|]. intros H. exact (alternatives_one l _ _ (expected_alternatives l) H). Qed.
