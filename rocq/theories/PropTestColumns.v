(** Property C59: names and columns written as text in tests, testutil/parse.go. *)

From Verif Require Import SpecTestColumns LemmasTestColumns LemmasDemo LemmasDemoTyped LemmasDemoScan LemmasDemoParser LemmasDemoGrammar LemmasDemoTestutil.

(** C59.  A name is read up to the first rune that cannot be part of it. *)
Theorem C59_identifier : forall (L : CaseLib) (U : RuneLib), RuneLib_scan U -> forall t text i t' f,
  (exists la, ParseIdentifier t text = Some (i, t', {| r_ahead := f; r_last := la |})) <->
  exists sp w, text = sp ++ w ++ f /\ spaces sp /\ word w /\ match f with [] => True | r :: _ => ~ word_rune r end /\ ID t (encode w) false = (t', i).
Proof. exact @ParseIdentifier_iff. Qed.
Print Assumptions C59_identifier.

(** Names between commas are read as the numbers of the names; no other text is
    read. *)
Theorem C59_names : forall (L : CaseLib) (U : RuneLib), RuneLib_scan U -> forall t text ns, real t -> names_text text ns ->
  exists t', ParseIdentifiers t text = Some (map (number t') ns, t') /\ real t' /\ later t t' /\ Forall (fun n => knows t' n false) ns.
Proof. exact @ParseIdentifiers_complete. Qed.
Print Assumptions C59_names.

Theorem C59_names_only : forall (L : CaseLib) (U : RuneLib), RuneLib_scan U -> forall t text r, real t -> ParseIdentifiers t text = Some r ->
  exists ns, names_text text ns.
Proof. exact @ParseIdentifiers_sound. Qed.
Print Assumptions C59_names_only.

(** Columns are read as they are written: the numbers of their names, their types
    and the columns of the primary key; no other text is read. *)
Theorem C59_columns : forall (L : CaseLib) (U : RuneLib), RuneLib_scan U -> forall t text ns cts keys, real t -> columns_text 0 text ns cts keys ->
  exists t', ParseColumns t text = Some (map (number t') ns, cts, map (fun k => MakeColumnKey k false) keys, t') /\
    real t' /\ later t t' /\ Forall (fun n => knows t' n false) ns.
Proof. exact @ParseColumns_complete. Qed.
Print Assumptions C59_columns.

Theorem C59_columns_only : forall (L : CaseLib) (U : RuneLib), RuneLib_scan U -> forall t text r, real t -> ParseColumns t text = Some r ->
  exists ns cts keys, columns_text 0 text ns cts keys.
Proof. exact @ParseColumns_sound. Qed.
Print Assumptions C59_columns_only.

(** There is a type for each name, and the columns of the key are among them. *)
Theorem C59_shape : forall (L : CaseLib) (U : RuneLib) num text ns cts keys, columns_text num text ns cts keys ->
  length ns = length cts /\ Forall (fun k => num <= k < num + Z.of_nat (length ns)) keys.
Proof. exact @columns_shape. Qed.
Print Assumptions C59_shape.

Example C59_case : RuneLib_scan demo_U /\ @real demo_L idt_init /\
  @columns_text demo_L demo_U 0 (runes demo_columns) [str "Id"; str "name"; str "x_1"] demo_column_types [0; 1] /\
  @names_text demo_U (runes " a,B , c") [str "a"; str "B"; str "c"] /\
  @ParseColumns demo_L demo_U idt_init (runes "a int(4)") = None /\ @ParseColumns demo_L demo_U idt_init (runes "a double precision") = None.
Proof. split; [exact demo_U_scan|]. split; [exact demo_real|]. split; [exact demo_columns_says|]. split; [exact demo_names_say|]. vm_compute. split; reflexivity. Qed.

(** Lengths are not kept within the limit of the parser of statements, but cut. *)
Theorem C59_size_refuted : ~ (forall (L : CaseLib) (U : RuneLib), RuneLib_scan U -> forall ds i ct,
  columns_text 0 (runes "a varchar(" ++ ds ++ runes ")") [str "a"] [ct] [] -> Forall (fun r => x_is_digit r = true) ds -> int_text (encode ds) i -> ct_size ct = i).
Proof. exact size_cut. Qed.
Print Assumptions C59_size_refuted.
