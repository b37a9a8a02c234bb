(** Concrete parsers for the examples. *)

From Verif Require Import ModelParser SpecParser SpecExpr SpecCreate LemmasBase LemmasAdjust LemmasDemo LemmasDemoTyped LemmasDemoEngine LemmasDemoScan LemmasParserProps.

Definition demo_P : PrintLib := {| x_print_float := fun _ => str "0.5" |}.
#[global] Existing Instance demo_P.

(** The parser for a text, before the first statement. *)
Definition demo_parser (text : String.string) : parser := newParser idt_init (runes text).

Lemma demo_runes text : Forall (fun r => 0 <= r <= 1114111) (runes text).
Proof. unfold runes. apply Forall_forall. intros r H. apply in_map_iff in H. destruct H as (b & <- & _). pose proof (bz_range b). lia. Qed.
Lemma demo_parsing text : parsing (runes text) (demo_parser text).
Proof. constructor. apply demo_runes. Qed.

(** What the first calls of [Parse] return. *)
Inductive shown_ : Type := Got (s : option stmt) | GotError | GotEOF | GotPanic | GotStuck.
Fixpoint demo_parses (n : nat) (p : parser) : list shown_ :=
  match n with
  | O => []
  | S n' =>
      match Parse p with
      | PStmt s p => Got s :: demo_parses n' p
      | PErr p => GotError :: demo_parses n' p
      | PEOF _ => [GotEOF]
      | PCrash => [GotPanic]
      | PStuck => [GotStuck]
      end
  end.
Fixpoint demo_after (n : nat) (p : parser) : parser :=
  match n with
  | O => p
  | S n' => match Parse p with PStmt _ p' | PErr p' | PEOF p' => demo_after n' p' | _ => p end
  end.
Lemma demo_after_parsing input n : forall p, parsing input p -> parsing input (demo_after n p).
Proof.
  induction n as [|n IH]; intros p H; [exact H|]. cbn. destruct (Parse p) eqn:E; try exact H; apply IH; [eapply ps_stmt|eapply ps_error|eapply ps_eof]; eauto.
Qed.
Definition demo_expr (text : String.string) : option expr :=
  match ParseExpr (demo_parser text) with Done e _ => Some e | _ => None end.

Lemma adjust_total e : exists t,
  grouped t /\ words t = words e /\
  adjustPrecedence (8 * expr_size e) e = Some t /\
  exists N, forall n, (N <= n)%nat -> adjustPrecedence n e = Some t /\ adjustPrecedence n t = Some t.
Proof.
  destruct (adjust_any (expr_size e) e (le_n _)) as (t & H1 & H2 & H3 & H4). exists t. split; [exact H1|]. split; [exact H2|]. split; [apply H4; lia|].
  exists (4 * expr_size e)%nat. intros n Hn. split; [now apply H4|]. apply adjust_grouped; [exact H1|lia].
Qed.

Lemma adjust_fixed e : grouped e -> exists N, forall n, (N <= n)%nat -> adjustPrecedence n e = Some e.
Proof. intros H. exists (expr_size e). intros n Hn. now apply adjust_grouped. Qed.

Lemma panic_refuted : ~ (forall (X : FloatLib) (L : CaseLib) (U : RuneLib) (B : BufLib) (P : PrintLib), RuneLib_scan U ->
  forall input p, parsing input p -> Parse p <> PCrash).
Proof.
  intros H. apply (H demo_X demo_L demo_U demo_B demo_P demo_U_scan _ _ (demo_parsing "USE NULL")). vm_compute. reflexivity.
Qed.

Lemma names_refuted : ~ (forall (X : FloatLib) (L : CaseLib) (U : RuneLib) (B : BufLib) (P : PrintLib), RuneLib_scan U ->
  forall input p tn cols types defaults ine csts fks p', parsing input p ->
  Parse p = PStmt (Some (SCreateTable tn cols types defaults ine csts fks)) p' ->
  forall i j a b, i <> j -> nth_error csts i = Some a -> nth_error csts j = Some b -> is_key a -> con_name a <> con_name b).
Proof.
  intros H. set (p := demo_parser "CREATE TABLE t (a INT CONSTRAINT x UNIQUE CONSTRAINT x CHECK (a))").
  assert (E : exists tn cols types defaults ine a b fks p', Parse p = PStmt (Some (SCreateTable tn cols types defaults ine [a; b] fks)) p' /\
    con_type a = UniqueConstraint /\ con_name a = con_name b) by (do 9 eexists; split; [vm_compute; reflexivity|split; reflexivity]).
  destruct E as (tn & cols & types & defaults & ine & a & b & fks & p' & E & Ha & Hn).
  apply (H demo_X demo_L demo_U demo_B demo_P demo_U_scan _ _ _ _ _ _ _ _ _ _ (demo_parsing _) E 0%nat 1%nat a b ltac:(discriminate) eq_refl eq_refl); [now right|exact Hn].
Qed.
