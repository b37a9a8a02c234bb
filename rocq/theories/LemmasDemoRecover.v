(** Concrete tapes for the examples of recovery from errors, and the refutations. *)

From Verif Require Import ModelParser SpecParser SpecTokens SpecRecover LemmasBase LemmasParserProps LemmasGrammarLink LemmasResume LemmasDemo LemmasDemoTyped LemmasDemoEngine LemmasDemoScan LemmasDemoParser LemmasDemoGrammar.

Definition demo_tape (text : String.string) : tape :=
  {| t_past := []; t_ahead := []; t_scanner := scannerInit idt_init (runes text) |}.
Lemma demo_in_step text : in_step (runes text) (demo_parser text) (demo_tape text).
Proof. apply start_in_step, demo_runes. Qed.

(** The tape after some calls. *)
Definition tape_left (r : t_parsed) (t : tape) : tape :=
  match r with TStmt _ t | TErr t | TFailed t | TEOF t => t | _ => t end.
Fixpoint demo_tape_after (n : nat) (p : parser) (t : tape) : tape :=
  match n with
  | O => t
  | S n' => demo_tape_after n' (demo_after 1 p) (tape_left (t_parse (p_failed p) t) t)
  end.
Lemma demo_after_in_step input n : forall p t, in_step input p t -> in_step input (demo_after n p) (demo_tape_after n p t).
Proof.
  induction n as [|n IH]; intros p t H; [exact H|]. cbn [demo_tape_after]. pose proof (parse_same demo_U_scan _ _ _ H) as K.
  assert (K' : in_step input (demo_after 1 p) (tape_left (t_parse (p_failed p) t) t)).
  { cbn [demo_after]. destruct (Parse p); destruct (t_parse _ _); try contradiction; cbn [tape_left]; (exact H || apply K). }
  specialize (IH _ _ K'). replace (demo_after (S n) p) with (demo_after n (demo_after 1 p)); [exact IH|].
  cbn [demo_after]. destruct (Parse p) eqn:E; try reflexivity; destruct n; try reflexivity; cbn [demo_after]; now rewrite E.
Qed.

(** Behind the next semicolon. *)
Definition demo_behind (t : tape) : tape := match t_skip 99 t with inr t' => t' | inl _ => t end.
Lemma demo_behind_next t : match t_skip 99 t with inr _ => true | inl _ => false end = true -> behind_next t (demo_behind t).
Proof. unfold demo_behind. destruct (t_skip 99 t) eqn:E; [discriminate|]. intros _. now apply skip_behind in E. Qed.
Lemma demo_goes_on t : match t_next t with Some (t', false) => match t_tok t' with KEOF => false | _ => true end | _ => false end = true -> goes_on t.
Proof. unfold goes_on. destruct (t_next t) as [[t' [|]]|]; try discriminate. intros H. exists t'. split; [reflexivity|]. intros E. now rewrite E in H. Qed.

(** A broken statement in front of another one. *)
Definition demo_broken : String.string := String.append "DROP 1 SELECT;" demo_delete.
Lemma demo_behind_real : real (s_ids (t_scanner (demo_behind (demo_tape_after 1 (demo_parser demo_broken) (demo_tape demo_broken))))).
Proof. replace (s_ids _) with idt_init by (vm_compute; reflexivity). apply demo_real. Qed.
Lemma demo_behind_text : statement_text (rest (t_scanner (demo_behind (demo_tape_after 1 (demo_parser demo_broken) (demo_tape demo_broken))))) demo_delete_tokens (runes "COMMIT").
Proof. replace (rest _) with (runes demo_delete) by (vm_compute; reflexivity). apply demo_delete_text. Qed.

(** A new parser in the middle of a text. *)
Definition demo_at (s : scanner) : parser :=
  {| p_scanner := s; p_lookBack := repeat c_zero 3; p_current := 0; p_unscanned := 0; p_failed := false |}.
Lemma demo_alike input p : parsing input p -> p_unscanned p = 0%nat -> p_failed p = false -> alike_parsers input p (demo_at (p_scanner p)).
Proof.
  intros H Hu Hf. destruct (parsing_in_step demo_U_scan _ _ H) as (t & HI). pose proof HI as ((O1 & O2 & _) & HS & _). rewrite O2 in Hu. apply length_zero_iff_nil in Hu.
  split; [exact Hf|]. exists t, {| t_past := []; t_ahead := []; t_scanner := t_scanner t |}. split; [exact HI|]. split; [|split; [reflexivity|now rewrite Hu]].
  split; [|split; [exact HS|split; [cbn; lia|constructor]]]. unfold on_tape. cbn [demo_at p_scanner p_unscanned p_lookBack p_current t_scanner t_ahead t_past length rev app].
  split; [exact O1|]. split; [reflexivity|]. split; [lia|]. split; [reflexivity|]. split; [lia|]. intros [|[|[|k]]] Hk; try lia; reflexivity.
Qed.
Definition demo_select_1 : stmt :=
  match demo_parses 1 (demo_parser "SELECT 1") with [Got (Some s)] => s | _ => SCommit end.

(** A lexical error at the beginning of a statement. *)
Definition demo_lexical : String.string := "? COMMIT; BEGIN".
Lemma lexical_refuted : ~ (forall (X : FloatLib) (L : CaseLib) (U : RuneLib) (B : BufLib) (P : PrintLib), RuneLib_scan U -> forall input p p' t t',
  parsing input p -> Parse p = PErr p' -> in_step input p' t -> t_tok t <> KEnd -> behind_next t t' -> goes_on t' ->
  same input (p_failed p') (Parse p') (t_parse false t')).
Proof.
  intros H. set (p := demo_parser demo_lexical). set (t := demo_tape_after 1 p (demo_tape demo_lexical)).
  assert (K : same (runes demo_lexical) (p_failed (demo_after 1 p)) (Parse (demo_after 1 p)) (t_parse false (demo_behind t))).
  { apply (H demo_X demo_L demo_U demo_B demo_P demo_U_scan _ p _ t).
    - apply demo_parsing.
    - vm_compute. reflexivity.
    - apply demo_after_in_step, demo_in_step.
    - vm_compute. discriminate.
    - apply demo_behind_next. vm_compute. reflexivity.
    - apply demo_goes_on. vm_compute. reflexivity. }
  assert (E1 : match Parse (demo_after 1 p) with PStmt s _ => Some s | _ => None end = Some (Some SCommit)) by (vm_compute; reflexivity).
  assert (E2 : match t_parse false (demo_behind t) with TStmt s _ => Some s | _ => None end = Some (Some SBegin)) by (vm_compute; reflexivity).
  clear H. clearbody t p. destruct (Parse (demo_after 1 p)); try discriminate. destruct (t_parse false (demo_behind t)); try discriminate. injection E1 as ->. injection E2 as ->. destruct K as [K _]. discriminate.
Qed.

(** Nothing behind the semicolon. *)
Definition demo_last : String.string := "DROP 1;".
Lemma last_refuted : ~ (forall (X : FloatLib) (L : CaseLib) (U : RuneLib) (B : BufLib) (P : PrintLib), RuneLib_scan U -> forall input p t t',
  parsing input p -> in_step input p t -> p_failed p = true -> behind_next t t' ->
  same input true (Parse p) (t_parse false t')).
Proof.
  intros H. set (p := demo_parser demo_last). set (t := demo_tape_after 1 p (demo_tape demo_last)).
  assert (K : same (runes demo_last) true (Parse (demo_after 1 p)) (t_parse false (demo_behind t))).
  { apply (H demo_X demo_L demo_U demo_B demo_P demo_U_scan _ (demo_after 1 p) t).
    - apply demo_after_parsing, demo_parsing.
    - apply demo_after_in_step, demo_in_step.
    - vm_compute. reflexivity.
    - apply demo_behind_next. vm_compute. reflexivity. }
  assert (E1 : match Parse (demo_after 1 p) with PErr _ => true | _ => false end = true) by (vm_compute; reflexivity).
  assert (E2 : match t_parse false (demo_behind t) with TEOF _ => true | _ => false end = true) by (vm_compute; reflexivity).
  clear H. clearbody t p. destruct (Parse (demo_after 1 p)); try discriminate. destruct (t_parse false (demo_behind t)); try discriminate. exact K.
Qed.
