(** Concrete texts of errors for the examples of C73. *)

From Verif Require Import LemmasBase LemmasDemo LemmasDemoTyped LemmasDemoEngine LemmasDemoScan LemmasDemoParser SpecScanner SpecParser SpecPlace ModelGot SpecGot.

#[export] Instance demo_W : GotLib := {
  x_quote s := x22 :: s ++ [x22];
  x_fixed p := format_int p;
  x_lexical c := format_int (c_token c)
}.

Lemma demo_W_ok : GotLib_ok.
Proof. intros s s' H. injection H as H. now apply app_inj_tail in H. Qed.

(** The token of the error that the first call returns, what its text says was
    found, and the bytes of the token. *)
Definition demo_found (text : String.string) : option (Z * option bytes * option bytes) :=
  match Parse (demo_parser text) with
  | PErr p => Some (c_token (p_sctx p), got (s_ids (p_scanner p)) (p_sctx p),
                    match p_tok p with KBytes l => Some (b_look (s_buffer (p_scanner p)) l) | _ => None end)
  | _ => None
  end.

Lemma demo_found_p text k g b : demo_found text = Some (k, g, b) ->
  exists p', Parse (demo_parser text) = PErr p' /\ c_token (p_sctx p') = k /\ got (s_ids (p_scanner p')) (p_sctx p') = g /\
    match p_tok p' with KBytes l => Some (b_look (s_buffer (p_scanner p')) l) | _ => None end = b.
Proof.
  unfold demo_found. destruct (Parse (demo_parser text)) as [| p'| | |]; try discriminate. intros [= <- <- <-]. now exists p'.
Qed.

Definition demo_stale : String.string := "VALUES ('abc', x'00' x'01')".

Lemma bytes_not_told : ~ (forall (X : FloatLib) (L : CaseLib) (U : RuneLib) (B : BufLib) (P : PrintLib) (W : GotLib), RuneLib_scan U -> GotLib_ok ->
  forall input p q l input' p' q' l', parsing input p -> Parse p = PErr q -> p_tok q = KBytes l ->
  parsing input' p' -> Parse p' = PErr q' -> p_tok q' = KBytes l' ->
  got (s_ids (p_scanner q)) (p_sctx q) = got (s_ids (p_scanner q')) (p_sctx q') ->
  b_look (s_buffer (p_scanner q)) l = b_look (s_buffer (p_scanner q')) l').
Proof.
  intros H. destruct (demo_found_p demo_stale (-7) (Some (str "bytes abc")) (Some [x01]) ltac:(vm_compute; reflexivity)) as (q & E & _ & G & K).
  destruct (demo_found_p "VALUES ('abc', x'00' x'02')" (-7) (Some (str "bytes abc")) (Some [x02]) ltac:(vm_compute; reflexivity)) as (q' & E' & _ & G' & K').
  destruct (p_tok q) eqn:T; try discriminate K. destruct (p_tok q') eqn:T'; try discriminate K'.
  pose proof (H demo_X demo_L demo_U demo_B demo_P demo_W demo_U_scan demo_W_ok _ _ _ _ _ _ _ _ (demo_parsing _) E T (demo_parsing _) E' T' (eq_trans G (eq_sym G'))) as N.
  rewrite N in K. rewrite K in K'. discriminate K'.
Qed.

Lemma parameter_not_told : ~ (forall (X : FloatLib) (L : CaseLib) (U : RuneLib) (B : BufLib) (P : PrintLib) (W : GotLib), RuneLib_scan U -> GotLib_ok ->
  forall input p q i input' p' q' i', parsing input p -> Parse p = PErr q -> p_tok q = KParameter i ->
  parsing input' p' -> Parse p' = PErr q' -> p_tok q' = KParameter i' ->
  got (s_ids (p_scanner q)) (p_sctx q) = got (s_ids (p_scanner q')) (p_sctx q') -> i = i').
Proof.
  intros H.
  assert (D : forall text i, match Parse (demo_parser text) with PErr p => (p_tok p, got (s_ids (p_scanner p)) (p_sctx p)) | _ => (KEOF, None) end = (KParameter i, Some (str "token -10")) ->
    exists q, Parse (demo_parser text) = PErr q /\ p_tok q = KParameter i /\ got (s_ids (p_scanner q)) (p_sctx q) = Some (str "token -10")).
  { intros text i. destruct (Parse (demo_parser text)) as [| p'| | |]; try discriminate. intros [= E1 E2]. exists p'. repeat split; assumption. }
  destruct (D "VALUES (1, 2 $1)"%string 1 ltac:(vm_compute; reflexivity)) as (q & E & T & G).
  destruct (D "VALUES (1, 2 $2)"%string 2 ltac:(vm_compute; reflexivity)) as (q' & E' & T' & G').
  pose proof (H demo_X demo_L demo_U demo_B demo_P demo_W demo_U_scan demo_W_ok _ _ _ _ _ _ _ _ (demo_parsing _) E T (demo_parsing _) E' T' (eq_trans G (eq_sym G'))) as N.
  discriminate N.
Qed.

Lemma stale_told : ~ (forall (X : FloatLib) (L : CaseLib) (U : RuneLib) (B : BufLib) (P : PrintLib) (W : GotLib), RuneLib_scan U -> GotLib_ok ->
  forall input p q d, parsing input p -> Parse p = PErr q -> tok_of d = p_tok q ->
  got (s_ids (p_scanner q)) d = got (s_ids (p_scanner q)) (p_sctx q)).
Proof.
  intros H. destruct (demo_found_p demo_stale (-7) (Some (str "bytes abc")) (Some [x01]) ltac:(vm_compute; reflexivity)) as (q & E & T & G & _).
  set (c := p_sctx q) in *.
  set (d := {| c_token := -7; c_error := None; c_ident := 0; c_string := []; c_bytes := c_bytes c; c_integer := 0; c_float := 0; c_line := 0; c_column := 0 |}).
  assert (K : tok_of d = p_tok q). { unfold p_tok. fold c. unfold tok_of. rewrite T. reflexivity. }
  pose proof (H demo_X demo_L demo_U demo_B demo_P demo_W demo_U_scan demo_W_ok _ _ _ d (demo_parsing _) E K) as N. fold c in N. rewrite G in N. vm_compute in N. discriminate N.
Qed.

(** What [expectTokens] says about bytes. *)
Lemma demo_expects :
  match run (expectation (XTokens [44; 41])) (demo_parser "x'00'") with
  | Failed q => c_token (p_sctx q) <> -3 /\ is_i64 (c_line (p_sctx q)) /\ is_i64 (c_column (p_sctx q)) /\
      is_i64 (c_token (p_sctx q)) /\ is_i64 (c_integer (p_sctx q))
  | _ => False
  end /\ Forall is_i64 [44; 41] /\
  expectError (str "console") (XTokens [44; 41]) (demo_parser "x'00'") = Some (str "parser: console:1:1: expected rune ,, or rune ), got bytes ").
Proof.
  split; [vm_compute; repeat split; discriminate|]. split; [repeat constructor; vm_compute; discriminate|]. vm_compute. reflexivity.
Qed.
