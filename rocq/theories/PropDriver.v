(** Property C60: the driver of the tests of a storage engine, storage/test/test.go. *)

From Verif Require Import SpecDriver LemmasDriver LemmasDemo LemmasDemoTestutil LemmasDemoDriver.

(** C60.  A test passes just if each call it makes has the outcome its case tells:
    a panic, an error, a row, the end, or none of these; the attributes of a table;
    the rows of a table.  The state of the store at its end is the one those calls
    lead to. *)
Theorem C60_driver : forall (X : FloatLib) (L : CaseLib) (G : GobLib) (S : SortLib) x l x', Forall asks l ->
  (test_passes x l x' <-> all_met x empty_hand l x').
Proof. exact @driver_exact. Qed.
Print Assumptions C60_driver.

Example C60_case : Forall asks demo_cases /\ demo_passes demo_cases = true /\
  demo_passes (demo_table_cases ++ [TInsert [[VString (str "a"); VInt 1]] true]) = false /\
  demo_passes (demo_table_cases ++ [TSelect None None None None [[VString (str "a"); VInt 1]] false]) = false.
Proof. split; [repeat constructor|]. vm_compute. repeat split. Qed.

(** A case that asks for a row without columns passes though the call failed. *)
Theorem C60_empty_refuted :
  ~ (forall (X : FloatLib) (L : CaseLib) (G : GobLib) (S : SortLib) x l x', test_passes x l x' -> all_met x empty_hand l x').
Proof. exact empty_row. Qed.
Print Assumptions C60_empty_refuted.
