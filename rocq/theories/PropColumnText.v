(** Property C61: the text of a type of a column, types/column.go. *)

From Verif Require Import ModelColumnText SpecColumnText LemmasIdent LemmasDemo LemmasDemoTyped LemmasDemoEngine LemmasDemoScan LemmasDemoParser LemmasGrammarLink LemmasDemoGrammar LemmasPrint LemmasDemoPrint LemmasDemoPrintStmt LemmasColumnText LemmasDemoColumnText.

(** C61.  A table defined with the texts of the types of its columns is read as the
    table with these columns and types. *)
Theorem C61_read : forall (X : FloatLib) (L : CaseLib) (U : RuneLib) (B : BufLib) (P : PrintLib), RuneLib_scan U -> CaseLib_ok L ->
  forall T tn l, real T -> plain_table T tn -> l <> [] -> NoDup (map fst l) ->
  Forall (fun p => simple T (fst p) /\ readable_type (snd p)) l ->
  exists text, table_definition T tn l (encode text) /\ Forall scalar text /\ read_as T text (table_of_columns tn l).
Proof. exact @table_definition_read. Qed.
Print Assumptions C61_read.

Example C61_case :
  let _ := demo_X in let _ := demo_L in let _ := demo_U in let _ := demo_B in let _ := demo_P in
  RuneLib_scan demo_U /\ CaseLib_ok demo_L /\ real demo_table /\ plain_table demo_table (demo_tn 52 53) /\ demo_columns <> [] /\
  NoDup (map fst demo_columns) /\ Forall (fun p => simple demo_table (fst p) /\ readable_type (snd p)) demo_columns /\
  table_definition demo_table (demo_tn 52 53) demo_columns (str demo_columns_text) /\
  demo_read_stmt (demo_reader demo_table (runes demo_columns_text)) = Some (table_of_columns (demo_tn 52 53) demo_columns, true).
Proof.
  intros. split; [exact demo_U_scan|]. split; [exact CaseLib_ascii_ok|]. split; [exact demo_table_real|]. split; [exact demo_columns_table|]. split; [discriminate|].
  split; [repeat constructor; cbn; intuition discriminate|]. split; [exact demo_columns_plain|]. split; [exact demo_columns_defined|]. vm_compute. reflexivity.
Qed.

(** The text of a type is this one. *)
Theorem C61_text : forall ct t, 0 <= ct_size ct < 2 ^ 32 -> columnTypeString ct = Some t <-> type_text ct t.
Proof. exact type_text_is. Qed.
Print Assumptions C61_text.
Example C61_text_case :
  let ct := {| ct_type := BytesType; ct_size := 12; ct_fixed := true; ct_notnull := false |} in
  0 <= ct_size ct < 2 ^ 32 /\ columnTypeString ct = Some (str "BINARY(12)") /\ type_text ct (str "BINARY(12)").
Proof. exact demo_type_text. Qed.

(** Different types have different texts. *)
Theorem C61_one : forall a b, readable_type a -> readable_type b -> columnTypeString a = columnTypeString b ->
  ct_type a = ct_type b /\ ct_size a = ct_size b /\ ct_fixed a = ct_fixed b.
Proof. exact type_one. Qed.
Print Assumptions C61_one.
Example C61_one_case :
  let a := {| ct_type := StringType; ct_size := 12; ct_fixed := false; ct_notnull := true |} in
  let b := {| ct_type := StringType; ct_size := 12; ct_fixed := false; ct_notnull := false |} in
  readable_type a /\ readable_type b /\ columnTypeString a = Some (str "VARCHAR(12)") /\ columnTypeString b = columnTypeString a.
Proof. vm_compute. repeat split; discriminate. Qed.

(** [String] panics just for the types without a text. *)
Theorem C61_panics : forall ct, columnTypeString ct = None <-> unprintable_type ct.
Proof. exact type_panics. Qed.
Print Assumptions C61_panics.

(** All types that [Parse] gives are read back, but for those of no size, and for
    REAL. *)
Theorem C61_parsed : forall (X : FloatLib) (L : CaseLib) (U : RuneLib) (B : BufLib) (P : PrintLib), RuneLib_scan U ->
  forall input p tn cols types ds b csts fks p', parsing input p -> p_unscanned p = 0%nat -> p_failed p = false -> real (s_ids (p_scanner p)) ->
  Parse p = PStmt (Some (SCreateTable tn cols types ds b csts fks)) p' ->
  Forall (fun ct => readable_type ct \/ unprintable_type ct \/ real_type ct) types.
Proof. exact @parsed_types. Qed.
Print Assumptions C61_parsed.
Example C61_parsed_case :
  let text := "CREATE TABLE t (a VARCHAR(3) NOT NULL, b CHAR(0), c REAL)"%string in
  parsing (runes text) (demo_reader demo_table (runes text)) /\ p_unscanned (demo_reader demo_table (runes text)) = 0%nat /\
  p_failed (demo_reader demo_table (runes text)) = false /\ real (s_ids (p_scanner (demo_reader demo_table (runes text)))) /\
  demo_first text = Some (SCreateTable (demo_tn 0 53) [47; 48; 51]
    [{| ct_type := StringType; ct_size := 3; ct_fixed := false; ct_notnull := true |};
     {| ct_type := StringType; ct_size := 0; ct_fixed := true; ct_notnull := false |};
     {| ct_type := Float64Type; ct_size := 4; ct_fixed := false; ct_notnull := false |}] [None; None; None] false [] [], demo_table).
Proof. split; [apply demo_reader_parsing|]. split; [reflexivity|]. split; [reflexivity|]. split; [exact (demo_reader_real demo_table _ demo_table_real)|]. vm_compute. reflexivity. Qed.

(** Types of no size are accepted: there is no text for them. *)
Theorem C61_size_refuted : ~ (forall (X : FloatLib) (L : CaseLib) (U : RuneLib) (B : BufLib) (P : PrintLib), RuneLib_scan U -> CaseLib_ok L ->
  forall input p tn cols types ds b csts fks p', parsing input p -> real (s_ids (p_scanner p)) ->
  Parse p = PStmt (Some (SCreateTable tn cols types ds b csts fks)) p' -> forall ct, In ct types -> columnTypeString ct <> None).
Proof. exact demo_no_text. Qed.
Print Assumptions C61_size_refuted.

(** REAL has the text of DOUBLE, that is another type. *)
Theorem C61_real_refuted : ~ (forall (X : FloatLib) (L : CaseLib) (U : RuneLib) (B : BufLib) (P : PrintLib), RuneLib_scan U -> CaseLib_ok L ->
  forall input p tn cols types ds b csts fks p' text, parsing input p -> real (s_ids (p_scanner p)) ->
  Parse p = PStmt (Some (SCreateTable tn cols types ds b csts fks)) p' ->
  table_definition (s_ids (p_scanner p')) tn (combine cols types) (encode text) -> Forall scalar text ->
  read_as (s_ids (p_scanner p')) text (table_of_columns tn (combine cols types))).
Proof. exact demo_same_text. Qed.
Print Assumptions C61_real_refuted.

(** The predefined types of columns: their texts, and whether NULL is allowed.  All
    but that of booleans are read back. *)
Theorem C61_predefined : Forall (fun '(ct, t, notnull) =>
    columnTypeString ct = Some (str t) /\ ct_notnull ct = notnull /\ ct_fixed ct = false /\ (ct_type ct = BoolType \/ readable_type ct))
  [(ModelColumn.IdColType, "VARCHAR(128)"%string, true); (ModelColumn.Int32ColType, "INT"%string, true); (ModelColumn.Int64ColType, "BIGINT"%string, true);
   (ModelColumn.NullInt64ColType, "BIGINT"%string, false); (ModelColumn.BoolColType, "BOOL"%string, true);
   (ModelColumn.StringColType, "VARCHAR(4096)"%string, true); (ModelColumn.NullStringColType, "VARCHAR(4096)"%string, false)].
Proof. exact predefined_types. Qed.
Print Assumptions C61_predefined.

(** The one of booleans has no size; BOOL is read as a type of size one. *)
Theorem C61_bool_refuted : ~ (forall ct, In ct [ModelColumn.IdColType; ModelColumn.Int32ColType; ModelColumn.Int64ColType; ModelColumn.NullInt64ColType; ModelColumn.BoolColType;
  ModelColumn.StringColType; ModelColumn.NullStringColType] -> readable_type ct).
Proof. exact predefined_bool. Qed.
Print Assumptions C61_bool_refuted.
