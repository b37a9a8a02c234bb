(** Property C57: the comparison of rows in tests, testutil/rows.go. *)

From Verif Require Import SpecTestutil LemmasTestRows LemmasDemoTestutil.

(** C57.  The comparison does not panic. *)
Theorem C57_total : forall (S : SortLib) rows1 rows2 unordered, exists b, RowsEqual rows1 rows2 unordered = Some b.
Proof. exact @RowsEqual_total. Qed.
Print Assumptions C57_total.

(** In order: rows are equal only if they are the same rows, but for the sign of
    zero. *)
Theorem C57_ordered : forall (S : SortLib) rows1 rows2, comparable (rows1 ++ rows2) ->
  (RowsEqual rows1 rows2 false = Some true <-> Forall2 same_row rows1 rows2).
Proof. exact @equal_ordered. Qed.
Print Assumptions C57_ordered.

(** In any order: only if some order of the one is the other. *)
Theorem C57_unordered : forall (S : SortLib), SortLib_ok S -> forall rows1 rows2, comparable (rows1 ++ rows2) ->
  (RowsEqual rows1 rows2 true = Some true <-> exists rows, Permutation rows2 rows /\ Forall2 same_row rows1 rows).
Proof. exact @equal_unordered. Qed.
Print Assumptions C57_unordered.

Example C57_case : SortLib_ok demo_S /\ comparable (demo_rows1 ++ demo_rows2) /\
  @RowsEqual demo_S demo_rows1 demo_rows2 true = Some true /\ @RowsEqual demo_S demo_rows1 demo_rows2 false = Some false /\
  @RowsEqual demo_S demo_rows1 (tl demo_rows2 ++ tl demo_rows2) true = Some false.
Proof. split; [exact demo_S_ok|]. split; [exact demo_comparable|]. vm_compute. repeat split. Qed.

(** Without the conditions it fails both ways.  A row with NaN equals a row with
    any other number; and rows in another order are found different if an integer
    in one stands where a float stands in another, or if there is a NaN. *)
Theorem C57_nan_refuted :
  ~ (forall (S : SortLib), SortLib_ok S -> forall rows1 rows2, RowsEqual rows1 rows2 false = Some true -> Forall2 same_row rows1 rows2).
Proof. exact nan_equal. Qed.
Print Assumptions C57_nan_refuted.

Theorem C57_mixed_refuted :
  ~ (forall (S : SortLib), SortLib_ok S -> forall rows1 rows2, Forall proper_row (rows1 ++ rows2) ->
     RowsEqual rows1 rows2 false = Some true -> Forall2 same_row rows1 rows2).
Proof. exact mixed_equal. Qed.
Print Assumptions C57_mixed_refuted.

Theorem C57_order_refuted :
  ~ (forall (S : SortLib), SortLib_ok S -> forall rows1 rows2, Forall proper_row (rows1 ++ rows2) ->
     Permutation rows1 rows2 -> RowsEqual rows1 rows2 true = Some true).
Proof. exact mixed_order. Qed.
Print Assumptions C57_order_refuted.

(** The rows of the caller stay as they were if they are compared in order or are
    not of one number; else they are left sorted.  Comparing what is left in order
    has the same result. *)
Theorem C57_leaves : forall (S : SortLib), SortLib_ok S -> forall rows1 rows2 unordered left1 left2,
  RowsEqualLeaves rows1 rows2 unordered = (left1, left2) ->
  Permutation rows1 left1 /\ Permutation rows2 left2 /\ RowsEqual left1 left2 false = RowsEqual rows1 rows2 unordered /\
  (unordered = false \/ length rows1 <> length rows2 -> left1 = rows1 /\ left2 = rows2) /\
  (unordered = true -> length rows1 = length rows2 ->
   (comparable rows1 -> StronglySorted (fun r1 r2 => CompareRows r2 r1 <> Some Lt) left1) /\
   (comparable rows2 -> StronglySorted (fun r1 r2 => CompareRows r2 r1 <> Some Lt) left2)).
Proof. exact @equal_leaves. Qed.
Print Assumptions C57_leaves.
Example C57_leaves_case : SortLib_ok demo_S /\ comparable (demo_rows1 ++ demo_rows2) /\
  @RowsEqualLeaves demo_S demo_rows1 demo_rows2 true =
    ([[VInt 1; VString (str "a")]; [VInt 1; VBytes (str "b")]; [VInt 2; VNull]],
     [[VInt 1; VString (str "a")]; [VInt 1; VBytes (str "b")]; [VInt 2; VNull]]).
Proof. split; [exact demo_S_ok|]. split; [exact demo_comparable|]. vm_compute. reflexivity. Qed.

(** So a comparison in any order changes the rows of its caller. *)
Theorem C57_kept_refuted :
  ~ (forall (S : SortLib), SortLib_ok S -> forall rows1 rows2 unordered, comparable (rows1 ++ rows2) -> RowsEqualLeaves rows1 rows2 unordered = (rows1, rows2)).
Proof. exact leaves_sorted. Qed.
Print Assumptions C57_kept_refuted.
