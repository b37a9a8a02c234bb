(** Concrete statements for the examples of what cannot be printed. *)

From Verif Require Import ModelPrint SpecBreaks SpecParser SpecTokens SpecIdent LemmasBase LemmasIdent LemmasDemo LemmasDemoTyped LemmasDemoEngine LemmasDemoScan LemmasDemoParser LemmasGrammarLink LemmasDemoGrammar LemmasBreaks LemmasPrint LemmasDemoPrint.

#[local] Existing Instances demo_X demo_L demo_U demo_B demo_P.

(** The second value is a call with a reference to no name. *)
Definition demo_broken : stmt := SValues [[Literal (VInt 1); SExpr 47 [Literal VNull; Ref []]]].
Definition demo_short_key : indexkey := {| ik_unique := true; ik_columns := [47; 48]; ik_reverse := [true] |}.
Definition demo_short_table : stmt :=
  SCreateTable {| tn_database := 0; tn_schema := 0; tn_table := 53 |} [47; 48]
    [{| ct_type := Int64Type; ct_size := 4; ct_fixed := false; ct_notnull := true |}; {| ct_type := BoolType; ct_size := 1; ct_fixed := false; ct_notnull := false |}]
    [None] false [] [].
(** What package fmt reports instead. *)
Definition demo_reported : expr := BinaryExpr AddOp (Literal (VInt 1)) (Ref []).

Lemma demo_breaks_ok :
  part_text demo_table (OfStmt demo_broken) = PPanic (str "runtime error: index out of range [0] with length 0") /\
  SpecBreaks.breaks (OfStmt demo_broken) (behind_end 0) /\
  part_text demo_table (OfKey demo_short_key) = PPanic (str "runtime error: index out of range [1] with length 1") /\
  flawed (OfKey demo_short_key) (behind_end 1) /\
  part_text demo_table (OfStmt demo_short_table) = PPanic (str "runtime error: index out of range [1] with length 1") /\
  flawed (OfStmt demo_short_table) (behind_end 1) /\
  part_text demo_table (OfExpr demo_reported) = PText (str "(1 + %!s(PANIC=String method: runtime error: index out of range [0] with length 0))") /\
  SpecBreaks.writable (OfExpr demo_reported).
Proof.
  split; [vm_compute; reflexivity|].
  split; [|split; [vm_compute; reflexivity|]; split; [apply (fl_key demo_short_key); cbn; lia|]; split; [vm_compute; reflexivity|];
           split; [apply (fl_columns _ _ _ _ _ _ _ 1); [reflexivity|cbn; lia]|]; split; [vm_compute; reflexivity|]].
  - apply br_called with (before := [OfExpr (Literal (VInt 1))]) (y := OfExpr (SExpr 47 [Literal VNull; Ref []])) (after := []); [reflexivity| |].
    + constructor; [|constructor]. constructor; [intros w H; inversion H|constructor].
    + apply br_called with (before := [OfExpr (Literal VNull)]) (y := OfExpr (Ref [])) (after := []); [reflexivity| |].
      * constructor; [|constructor]. constructor; [intros w H; inversion H|constructor].
      * apply br_flawed. constructor.
  - constructor; [intros w H; inversion H|constructor].
Qed.

Definition demo_insert_default : String.string := "INSERT INTO t (a, b) VALUES (1, 2), (3, DEFAULT); COMMIT".
Definition demo_insert_stmt : stmt :=
  SInsertValues {| tn_database := 0; tn_schema := 0; tn_table := 47 |} [48; 49]
    [[Some (Literal (VInt 1)); Some (Literal (VInt 2))]; [Some (Literal (VInt 3)); None]].

Lemma not_all_printed : ~ (forall (X : FloatLib) (L : CaseLib) (U : RuneLib) (B : BufLib) (P : PrintLib), RuneLib_scan U -> forall input p s p',
  parsing input p -> p_unscanned p = 0%nat -> p_failed p = false -> real (s_ids (p_scanner p)) ->
  Parse p = PStmt (Some s) p' -> SpecBreaks.writable (OfStmt s)).
Proof.
  intros H.
  assert (E : match Parse (demo_parser demo_insert_default) with PStmt s _ => Some s | _ => None end = Some (Some demo_insert_stmt)) by (vm_compute; reflexivity).
  pose proof (H demo_X demo_L demo_U demo_B demo_P demo_U_scan (runes demo_insert_default) (demo_parser demo_insert_default) demo_insert_stmt) as K. clear H.
  destruct (Parse (demo_parser demo_insert_default)) as [s p'| | | |]; try discriminate E. injection E as ->.
  specialize (K p' (demo_parsing _) eq_refl eq_refl demo_real eq_refl).
  inversion K as [? _ KF]; subst. rewrite Forall_forall in KF. specialize (KF OfNothing). cbn [called demo_insert_stmt concat app map or_nothing In] in KF.
  assert (W : SpecBreaks.writable OfNothing) by (apply KF; tauto). inversion W as [? WU _]; subst. apply (WU nil_method). constructor.
Qed.
