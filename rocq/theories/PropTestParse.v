(** Property C58: rows written as text in tests, testutil/parse.go. *)

From Verif Require Import SpecTestutil LemmasIdent LemmasTestParse LemmasDemo LemmasDemoTyped LemmasDemoScan LemmasDemoParser LemmasDemoTestutil.

(** C58.  A value, a row and rows are read exactly from the texts for them, and
    what follows a value or a row is left to be read. *)
Theorem C58_value : forall (X : FloatLib) (L : CaseLib) (U : RuneLib), RuneLib_scan U -> forall text v f,
  (exists la, ParseValue text = Some (v, {| r_ahead := f; r_last := la |})) <->
  exists sp w, text = sp ++ w ++ f /\ spaces sp /\ value_text w v /\ ends_value v f.
Proof. exact @ParseValue_iff. Qed.
Print Assumptions C58_value.

Theorem C58_row : forall (X : FloatLib) (L : CaseLib) (U : RuneLib), RuneLib_scan U -> forall text r f,
  (exists la, ParseRow text = Some (r, {| r_ahead := f; r_last := la |})) <-> exists w, text = w ++ f /\ row_text w r.
Proof. exact @ParseRow_iff. Qed.
Print Assumptions C58_row.

Theorem C58_rows : forall (X : FloatLib) (L : CaseLib) (U : RuneLib), RuneLib_scan U -> forall text rows,
  ParseRows text = Some rows <-> rows_text text rows.
Proof. exact @ParseRows_iff. Qed.
Print Assumptions C58_rows.

Example C58_case : RuneLib_scan demo_U /\ @rows_text half_X demo_L demo_U (runes demo_rows3_text) demo_rows3 /\
  demo_rows3 = [[VInt 12; VString (str "a, b")]; [VNull; VBytes [zb 255; zb 10]]; [VBool true; VFloat half]] /\
  @ParseRows half_X demo_L demo_U (runes "(1, )") = None /\ @ParseRows half_X demo_L demo_U (runes "(1),") = None.
Proof. split; [exact demo_U_scan|]. split; [exact demo_rows3_says|]. vm_compute. repeat split. Qed.

(** Rows are read back from what [FormatRows] writes for them, if every value is
    writable. *)
Theorem C58_round_trip : forall (X : FloatLib) (L : CaseLib) (U : RuneLib), RuneLib_scan U -> forall (P : PrintLib), CaseLib_ok L -> forall rows sep,
  rows <> [] -> Forall (fun r => r <> [] /\ Forall writable r) rows -> separator sep ->
  exists w, Forall scalar w /\ encode w = FormatRows rows sep /\ ParseRows w = Some rows /\
    forall w', Forall scalar w' -> encode w' = FormatRows rows sep -> w' = w.
Proof. exact @round_trip_rows. Qed.
Print Assumptions C58_round_trip.

Example C58_round_trip_case : CaseLib_ok demo_L /\ Forall (fun r => r <> [] /\ Forall (@writable half_X demo_P) r) demo_rows3 /\
  @separator demo_U (str " , ") /\
  FormatRows demo_rows3 (str " , ") = str "(12, 'a, b') , (NULL, '\xff0a') , (true, 0.5)".
Proof. split; [exact CaseLib_ascii_ok|]. split; [exact demo_rows3_writable|]. split; [exact demo_separator|]. vm_compute. reflexivity. Qed.

(** Not all values are: no negative integer is ever read, nor a row without
    values. *)
Theorem C58_never_negative : forall (X : FloatLib) (L : CaseLib) (U : RuneLib), RuneLib_scan U -> forall w rows, ParseRows w = Some rows ->
  rows <> [] /\ Forall (fun r => r <> [] /\ Forall (fun v => match v with VInt i => 0 <= i | _ => True end) r) rows.
Proof. exact @rows_positive. Qed.
Print Assumptions C58_never_negative.

Example C58_never_negative_case : RuneLib_scan demo_U /\
  @ParseRows half_X demo_L demo_U (runes "(12, NULL), (0)") = Some [[VInt 12; VNull]; [VInt 0]] /\
  @ParseRows half_X demo_L demo_U (runes "(-12)") = None /\ @ParseRows half_X demo_L demo_U (runes "()") = None /\
  @ParseRows half_X demo_L demo_U (runes "") = None.
Proof. split; [exact demo_U_scan|]. vm_compute. repeat split. Qed.

(** Nor are different rows always written differently. *)
Theorem C58_injective_refuted : exists rows1 rows2 : list row, rows1 <> rows2 /\ Forall proper_row (rows1 ++ rows2) /\
  forall (P : PrintLib) sep, FormatRows rows1 sep = FormatRows rows2 sep.
Proof. exact same_print. Qed.
Print Assumptions C58_injective_refuted.
