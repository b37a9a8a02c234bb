(** A table with columns of every type, and what is not read back. *)

From Verif Require Import ModelColumnText SpecColumnText SpecIdent LemmasBase LemmasIdent LemmasParserProps LemmasDemo LemmasDemoTyped LemmasDemoEngine LemmasDemoScan LemmasDemoParser LemmasGrammarLink LemmasDemoGrammar LemmasPrint LemmasQuote LemmasDemoPrint LemmasDemoPrintStmt LemmasColumnText.

#[local] Existing Instances demo_X demo_L demo_U demo_B demo_P.

Definition demo_columns : list (Z * coltype) :=
  let ct t s f n := {| ct_type := t; ct_size := s; ct_fixed := f; ct_notnull := n |} in
  [(47, ct StringType 12 true true); (48, ct StringType 4294967294 false false); (49, ct BytesType 7 false true);
   (51, ct BytesType 1 true false); (52, ct Int64Type 2 false false); (53, ct Int64Type 8 false true); (54, ct Float64Type 8 false false);
   (55, ct BoolType 1 false false)].
Definition demo_columns_text : String.string :=
  "CREATE TABLE s.t (a CHAR(12) NOT NULL, b TEXT, f VARBINARY(7) NOT NULL, c BINARY(1), s SMALLINT, t BIGINT NOT NULL, u DOUBLE, x BOOL)".

Lemma demo_columns_plain : Forall (fun p => simple demo_table (fst p) /\ readable_type (snd p)) demo_columns.
Proof. unfold demo_columns. repeat (apply Forall_cons; [split; [cbn [fst]; demo_name|unfold readable_type; cbn [snd ct_type ct_size ct_fixed]; try (split; [|reflexivity]); lia]|]). apply Forall_nil. Qed.
Lemma demo_columns_defined : table_definition demo_table (demo_tn 52 53) demo_columns (str demo_columns_text).
Proof.
  unfold demo_columns. eexists. split; [do 7 (eapply cds_more; [reflexivity|]); eapply cds_one; reflexivity|]. vm_compute. reflexivity.
Qed.
Lemma demo_columns_table : plain_table demo_table (demo_tn 52 53).
Proof. demo_table_ok. Qed.

(** [Parse] gives types that have no text; and types that have the text of others. *)
Lemma demo_columns_parsed text s : demo_first text = Some (s, demo_table) -> exists p', Parse (demo_reader demo_table (runes text)) = PStmt (Some s) p'.
Proof. intros E. apply demo_result_inv in E. destruct E as (p' & E & _). now exists p'. Qed.
Definition demo_one (t : coltype) : stmt := SCreateTable (demo_tn 0 53) [47] [t] [None] false [] [].

Lemma demo_no_text : ~ (forall (X : FloatLib) (L : CaseLib) (U : RuneLib) (B : BufLib) (P : PrintLib), RuneLib_scan U -> CaseLib_ok L ->
  forall input p tn cols types ds b csts fks p', parsing input p -> real (s_ids (p_scanner p)) ->
  Parse p = PStmt (Some (SCreateTable tn cols types ds b csts fks)) p' -> forall ct, In ct types -> columnTypeString ct <> None).
Proof.
  intros H. destruct (demo_columns_parsed "CREATE TABLE t (a CHAR(0))"%string (demo_one {| ct_type := StringType; ct_size := 0; ct_fixed := true; ct_notnull := false |})) as [p' E]; [vm_compute; reflexivity|].
  refine (H demo_X demo_L demo_U demo_B demo_P demo_U_scan CaseLib_ascii_ok _ _ _ _ _ _ _ _ _ _ (demo_reader_parsing demo_table _) (demo_reader_real demo_table _ demo_table_real) E _ (or_introl eq_refl) _). reflexivity.
Qed.

Lemma demo_not_read T s text r : Forall scalar text -> real T -> demo_read_stmt (demo_reader T text) = r -> r <> Some (strip_stmt s, true) -> ~ read_as T text s.
Proof.
  intros S R D N K. destruct (K text (demo_reader T text)) as (p' & H1 & H2 & H3); [|reflexivity|reflexivity|reflexivity|exact R|apply grown_later; [exact R|now apply grown_refl]|].
  - constructor. eapply Forall_impl; [|exact S]. intros y [H _]. exact H.
  - apply N. rewrite <- D. unfold demo_read_stmt. rewrite H1, H2, H3. reflexivity.
Qed.
Definition demo_real_type : coltype := {| ct_type := Float64Type; ct_size := 4; ct_fixed := false; ct_notnull := false |}.
Lemma demo_reads_as : (forall (X : FloatLib) (L : CaseLib) (U : RuneLib) (B : BufLib) (P : PrintLib), RuneLib_scan U -> CaseLib_ok L ->
  forall input p tn cols types ds b csts fks p' text, parsing input p -> real (s_ids (p_scanner p)) ->
  Parse p = PStmt (Some (SCreateTable tn cols types ds b csts fks)) p' ->
  table_definition (s_ids (p_scanner p')) tn (combine cols types) (encode text) -> Forall scalar text ->
  read_as (s_ids (p_scanner p')) text (table_of_columns tn (combine cols types))) ->
  forall from text tn cols types ds b csts fks, demo_first from = Some (SCreateTable tn cols types ds b csts fks, demo_table) -> Forall scalar text ->
  table_definition demo_table tn (combine cols types) (encode text) -> read_as demo_table text (table_of_columns tn (combine cols types)).
Proof.
  intros H from text tn cols types ds b csts fks E S D. apply demo_result_inv in E. destruct E as (p' & E & Et). rewrite <- Et in D |- *.
  exact (H demo_X demo_L demo_U demo_B demo_P demo_U_scan CaseLib_ascii_ok _ _ _ _ _ _ _ _ _ _ text (demo_reader_parsing demo_table _) (demo_reader_real demo_table _ demo_table_real) E D S).
Qed.
Lemma demo_same_text : ~ (forall (X : FloatLib) (L : CaseLib) (U : RuneLib) (B : BufLib) (P : PrintLib), RuneLib_scan U -> CaseLib_ok L ->
  forall input p tn cols types ds b csts fks p' text, parsing input p -> real (s_ids (p_scanner p)) ->
  Parse p = PStmt (Some (SCreateTable tn cols types ds b csts fks)) p' ->
  table_definition (s_ids (p_scanner p')) tn (combine cols types) (encode text) -> Forall scalar text ->
  read_as (s_ids (p_scanner p')) text (table_of_columns tn (combine cols types))).
Proof.
  intros H. refine (demo_not_read demo_table (demo_one demo_real_type) (runes "CREATE TABLE t (a DOUBLE)") _ (demo_scalar _) demo_table_real eq_refl _ (demo_reads_as H "CREATE TABLE t (a REAL)" (runes "CREATE TABLE t (a DOUBLE)") (demo_tn 0 53) [47] [demo_real_type] [None] false [] [] _ (demo_scalar _) _)).
  - vm_compute. discriminate.
  - vm_compute. reflexivity.
  - eexists. split; [eapply cds_one; reflexivity|]. vm_compute. reflexivity.
Qed.

Lemma demo_type_text :
  let ct := {| ct_type := BytesType; ct_size := 12; ct_fixed := true; ct_notnull := false |} in
  0 <= ct_size ct < 2 ^ 32 /\ columnTypeString ct = Some (str "BINARY(12)") /\ type_text ct (str "BINARY(12)").
Proof.
  intros ct. split; [split; [discriminate|reflexivity]|]. split; [vm_compute; reflexivity|].
  apply (tx_sized ct "BINARY" (str "12")); [cbn; tauto|discriminate|discriminate|].
  apply (SpecCast.dec_pos Byte.x31 [Byte.x32]); [split; discriminate|discriminate|repeat constructor; discriminate].
Qed.
