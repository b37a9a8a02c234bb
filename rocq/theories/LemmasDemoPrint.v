(** Concrete expressions for the examples of printing, and the refutations. *)

From Verif Require Import ModelPrint SpecPrint SpecIdent LemmasBase LemmasIdent LemmasParserProps LemmasDemo LemmasDemoTyped LemmasDemoEngine LemmasDemoScan LemmasDemoParser LemmasGrammarLink LemmasDemoGrammar LemmasPrint LemmasQuote.

#[local] Existing Instances demo_X demo_L demo_U demo_B demo_P.

(** A table that has the names a, b and f (47 to 49), one that must be written in
    quotes (50), and c, s, t, u, x, y and z (51 to 57). *)
Definition demo_table : idtable :=
  register (map (fun w => TName (str w) (String.eqb w "a b")) ["a"; "b"; "f"; "a b"; "c"; "s"; "t"; "u"; "x"; "y"; "z"]%string) idt_init.
Lemma demo_table_real : real demo_table.
Proof. apply register_spec, demo_real. Qed.

(** NOT a AND f(-7, a.b, 'x') < b, with parentheses to spare. *)
Definition demo_plain : expr :=
  BinaryExpr AndOp (UnaryExpr NotOp (UnaryExpr NoOp (Ref [47])))
    (BinaryExpr LessThanOp (SExpr 49 [Literal (VInt (-7)); Ref [47; 48]; Literal (VString (encode (runes "x")))]) (UnaryExpr NegateOp (Ref [48]))).

Ltac demo_simple n := split; [lia|]; split; [vm_compute; reflexivity|];
  exists (bz n), []; split; [vm_compute; reflexivity|]; split; [left; reflexivity|]; split; [constructor|];
  repeat constructor; vm_compute; intuition discriminate.
Lemma demo_simple_a : simple demo_table 47.
Proof. demo_simple "a"%byte. Qed.
Lemma demo_simple_b : simple demo_table 48.
Proof. demo_simple "b"%byte. Qed.
Lemma demo_simple_f : simple demo_table 49.
Proof. demo_simple "f"%byte. Qed.

Lemma demo_plain_ok : plain demo_table false demo_plain.
Proof.
  assert (N : forall op, op = AndOp \/ op = LessThanOp -> ~ In op [NoOp; NotOp; NegateOp]) by (intros op [-> | ->]; cbn; intuition discriminate).
  pose proof demo_simple_a. pose proof demo_simple_b. pose proof demo_simple_f.
  unfold demo_plain. apply pl_binary; [apply N; auto| |apply pl_binary; [apply N; auto|apply pl_call; [assumption|]|]].
  - apply pl_unary; [cbn; tauto|]. apply pl_parens. apply pl_ref. repeat (apply Forall_cons; [assumption|]). apply Forall_nil.
  - apply pls_cons; [constructor; lia|]. apply pls_cons; [apply pl_ref; repeat (apply Forall_cons; [assumption|]); apply Forall_nil|]. apply pls_cons; [|apply pls_nil].
    constructor; [repeat constructor; vm_compute; intuition discriminate|vm_compute; intuition discriminate].
  - apply pl_unary; [cbn; tauto|]. apply pl_ref. repeat (apply Forall_cons; [assumption|]). apply Forall_nil.
Qed.

(** A parser that starts with the table. *)
Definition demo_reader (T : idtable) (text : list Z) : parser := newParser T text.
Definition demo_read {X : FloatLib} {P : PrintLib} (p : parser) : option expr := match ParseExpr p with Done e _ => Some (strip e) | _ => None end.
Lemma demo_not_returned {X : FloatLib} {P : PrintLib} T e text r : Forall scalar text -> real T -> exprString T e = PText (encode text) ->
  demo_read (demo_reader T text) = r -> r <> Some (strip e) -> ~ returns T e.
Proof.
  intros S R E D N (text' & E' & S' & K). rewrite E in E'. injection E' as E'. apply encode_injective in E'; [|assumption..]. subst text'.
  destruct (K text (demo_reader T text)) as (e' & p' & H1 & H2); [|reflexivity|reflexivity|exact R|apply grown_later; [exact R|now apply grown_refl]|].
  - constructor. eapply Forall_impl; [|exact S]. intros y [H _]. exact H.
  - apply N. rewrite <- D. unfold demo_read. now rewrite H1, H2.
Qed.
Lemma demo_scalar text : Forall scalar (runes text).
Proof. unfold runes. apply Forall_forall. intros r H. apply in_map_iff in H. destruct H as (b & <- & _). pose proof (bz_range b). unfold scalar. lia. Qed.
Ltac demo_refute t r := apply (demo_not_returned _ _ t r);
  [apply demo_scalar|apply demo_table_real|vm_compute; reflexivity|vm_compute; reflexivity|discriminate].

Lemma demo_least_lost : ~ returns demo_table (Literal (VInt (- 2 ^ 63))).
Proof. demo_refute (runes "-9223372036854775808") (@None expr). Qed.
Lemma demo_name_lost : ~ returns demo_table (Ref [50]).
Proof. demo_refute (runes "a b") (Some (Ref [47])). Qed.
Lemma demo_quote_lost : ~ returns demo_table (Literal (VString (str "a' OR 'b"))).
Proof. demo_refute (runes "'a' OR 'b'") (Some (BinaryExpr OrOp (Literal (VString (str "a"))) (Literal (VString (str "b"))))). Qed.
Lemma demo_bytes_lost : ~ returns demo_table (Literal (VBytes [x01; xab])).
Proof. demo_refute (runes "'\x01ab'") (Some (Literal (VString (str "\x01ab")))). Qed.
(** Floats: one half is written with a dot, one without, and 1500000 with an exponent. *)
Definition float_X : FloatLib := {|
  x_format_float := fun _ => str "0";
  x_parse_float := fun w => if bytes_eqb w (str "0.5") then Some 4602678819172646912 else if bytes_eqb w (str "1.5") then Some 4609434218613702656 else None;
  x_float_to_int := fun _ => 0 |}.
Definition float_P : PrintLib := {|
  x_print_float := fun p => if p =? 4602678819172646912 then str "0.5" else if p =? 13826050856027422720 then str "-0.5" else if p =? 4607182418800017408 then str "1" else str "1.5e+06" |}.
Lemma demo_half_plain : @plain_float float_X float_P 13826050856027422720.
Proof. exists true, (runes "0"), (runes "5"), 4602678819172646912. repeat split; try discriminate; repeat constructor; discriminate. Qed.
Lemma demo_floats_lost : ~ (forall p, is_u64 p -> @returns float_X demo_L demo_U demo_B float_P demo_table (Literal (VFloat p))).
Proof.
  intros H. revert H. enough (K : ~ @returns float_X demo_L demo_U demo_B float_P demo_table (Literal (VFloat 4607182418800017408))) by (intros H; apply K, H; unfold is_u64; lia).
  apply (@demo_not_returned float_X float_P _ _ (runes "1") (Some (Literal (VInt 1)))); [apply demo_scalar|apply demo_table_real|vm_compute; reflexivity|vm_compute; reflexivity|discriminate].
Qed.
Lemma demo_exponent_lost : ~ @returns float_X demo_L demo_U demo_B float_P demo_table (Literal (VFloat 4699193262664056832)).
Proof.
  apply (@demo_not_returned float_X float_P _ _ (runes "1.5e+06") (Some (Literal (VFloat 4609434218613702656)))); [apply demo_scalar|apply demo_table_real|vm_compute; reflexivity|vm_compute; reflexivity|discriminate].
Qed.
Lemma demo_ints_lost : ~ (forall i, is_i64 i -> returns demo_table (Literal (VInt i))).
Proof. intros H. apply demo_least_lost, H. unfold is_i64. lia. Qed.
Lemma demo_names_lost : ~ (forall i, 0 <= i -> returns demo_table (Ref [i])).
Proof. intros H. apply demo_name_lost, H. lia. Qed.
