(** Properties C05 - C08 and C13: encode/key.go and types/column.go. *)

From Verif Require Import ModelKey SpecValue LemmasBase LemmasKey LemmasValue.

(** C05.  Comparing encoded keys byte by byte is comparing the rows column by
    column, in the order of the values of each column. *)
Theorem C05_key_order :
  forall cols r1 r2,
  key_fits cols r1 -> key_fits cols r2 -> Forall wf_value r1 -> Forall wf_value r2 ->
  exists k1 k2, MakeKey (keys_of cols) r1 = Some k1 /\ MakeKey (keys_of cols) r2 = Some k2 /\
    bytes_compare k1 k2 = key_order cols r1 r2.
Proof. exact key_order_lemma. Qed.
Print Assumptions C05_key_order.

(** Making the key of a row that lacks a key column crashes. *)
Theorem C05_key_missing_column :
  forall cols r,
  (forall c d, In (c, d) cols -> Z.of_nat c < 2 ^ 31 - 1) ->
  (exists c d, In (c, d) cols /\ (length r <= c)%nat) ->
  MakeKey (keys_of cols) r = None.
Proof. exact MakeKey_missing. Qed.
Print Assumptions C05_key_missing_column.

Example C05_case :
  let cols := [(1%nat, false); (0%nat, true)] in
  let r1 := [VInt (-5); VString (str "ab")] in
  let r2 := [VInt 7; VString (str "ab")] in
  key_fits cols r1 /\ key_fits cols r2 /\ Forall wf_value r1 /\ Forall wf_value r2 /\
  key_order cols r1 r2 = Gt /\
  MakeKey (keys_of [(4%nat, false)]) r1 = None.
Proof.
  cbv zeta. split; [|split; [|split; [|split; [|split]]]].
  - intros c d [[= <- <-]|[[= <- <-]|[]]]; cbn; lia.
  - intros c d [[= <- <-]|[[= <- <-]|[]]]; cbn; lia.
  - repeat constructor; unfold is_i64; lia.
  - repeat constructor; unfold is_i64; lia.
  - reflexivity.
  - reflexivity.
Qed.

(** C06.  Two rows have the same key exactly when their key columns hold the
    same values; only NaNs and the two zeros are identified. *)
Theorem C06_key_equality :
  forall cols r1 r2 k1 k2,
  key_fits cols r1 -> key_fits cols r2 -> Forall wf_value r1 -> Forall wf_value r2 ->
  MakeKey (keys_of cols) r1 = Some k1 -> MakeKey (keys_of cols) r2 = Some k2 ->
  (k1 = k2 <-> forall c d, In (c, d) cols -> same_key_value (nth c r1 VNull) (nth c r2 VNull)).
Proof. exact key_equal_lemma. Qed.
Print Assumptions C06_key_equality.

Example C06_case :
  let cols := [(0%nat, false); (1%nat, false)] in
  MakeKey (keys_of cols) [VString [x00]; VString []] <> MakeKey (keys_of cols) [VString []; VString [x00]] /\
  MakeKey (keys_of cols) [VFloat 0; VNull] = MakeKey (keys_of cols) [VFloat (2 ^ 63); VNull] /\
  key_fits cols [VString [x00]; VString []].
Proof.
  cbv zeta. split; [vm_compute; congruence|]. split; [reflexivity|].
  intros c d [[= <- <-]|[[= <- <-]|[]]]; cbn; lia.
Qed.

(** C07.  The key of one row is never a proper prefix of the key of another,
    so what follows a key can be recovered; and the key over two lists of
    columns is the concatenation of the keys. *)
Theorem C07_prefix_free :
  forall cols r1 r2 k1 k2 s1 s2,
  key_fits cols r1 -> key_fits cols r2 -> Forall wf_value r1 -> Forall wf_value r2 ->
  MakeKey (keys_of cols) r1 = Some k1 -> MakeKey (keys_of cols) r2 = Some k2 ->
  k1 ++ s1 = k2 ++ s2 -> k1 = k2 /\ s1 = s2.
Proof. exact prefix_free_lemma. Qed.
Print Assumptions C07_prefix_free.

Theorem C07_concatenation :
  forall c1 c2 r,
  MakeKey (keys_of (c1 ++ c2)) r =
  match MakeKey (keys_of c1) r, MakeKey (keys_of c2) r with
  | Some a, Some b => Some (a ++ b)
  | _, _ => None
  end.
Proof. exact key_app_lemma. Qed.
Print Assumptions C07_concatenation.

Example C07_case :
  MakeKey (keys_of [(0%nat, false)]) [VString (str "a")] = Some [x96; x61; x00] /\
  MakeKey (keys_of [(0%nat, false)]) [VString (str "ab")] = Some [x96; x61; x62; x00] /\
  MakeKey (keys_of [(0%nat, false); (1%nat, false)]) [VBool true; VNull] = Some [x81; x01; x80].
Proof. vm_compute. repeat split. Qed.

(** C08.  In a column of one type, index order is the order of [Compare],
    reversed for a descending column; in an ascending column also across NULL
    and the types other than integer against float. *)
Theorem C08_index_agrees_with_compare :
  forall d v w k1 k2,
  wf_value v -> wf_value w -> ~ is_nan v -> ~ is_nan w -> ~ mixed_numbers v w ->
  (d = true -> type_rank v = type_rank w) ->
  MakeKey (keys_of [(0%nat, d)]) [v] = Some k1 -> MakeKey (keys_of [(0%nat, d)]) [w] = Some k2 ->
  Compare v w = Some (if d then CompOpp (bytes_compare k1 k2) else bytes_compare k1 k2).
Proof. exact key_compare_agree. Qed.
Print Assumptions C08_index_agrees_with_compare.

(** The hypothesis on descending columns is needed: NULL is before 1 both in
    [Compare] and in a descending index. *)
Theorem C08_descending_null_refuted :
  exists v w k1 k2,
    MakeKey (keys_of [(0%nat, true)]) [v] = Some k1 /\
    MakeKey (keys_of [(0%nat, true)]) [w] = Some k2 /\
    Compare v w = Some Lt /\ bytes_compare k1 k2 = Lt.
Proof. exact key_desc_null_witness. Qed.
Print Assumptions C08_descending_null_refuted.

Example C08_case :
  let v := VInt (-1) in let w := VInt 200 in
  wf_value v /\ wf_value w /\ ~ is_nan v /\ ~ is_nan w /\ ~ mixed_numbers v w /\
  type_rank v = type_rank w /\ Compare v w = Some Lt /\
  (exists k1 k2, MakeKey (keys_of [(0%nat, true)]) [v] = Some k1 /\
     MakeKey (keys_of [(0%nat, true)]) [w] = Some k2 /\ bytes_compare k1 k2 = Gt).
Proof.
  cbv zeta. repeat split; try (cbn; unfold is_i64; lia);
    try (intros (p & [=] & _)); try (intros []).
  eexists _, _. repeat split; vm_compute; reflexivity.
Qed.

(** C13.  A column key carries its column number and direction; updating some
    columns is recognised as a key update exactly when one of them is a key
    column. *)
Theorem C13_column_key_round_trip :
  forall n d, 0 <= n < 2 ^ 31 - 1 ->
  ckColumn (MakeColumnKey n d) = n /\ ckReverse (MakeColumnKey n d) = d /\
  is_i32 (MakeColumnKey n d).
Proof. exact column_key_round_trip_lemma. Qed.
Print Assumptions C13_column_key_round_trip.

Theorem C13_column_key_injective :
  forall n d n' d', 0 <= n < 2 ^ 31 - 1 -> 0 <= n' < 2 ^ 31 - 1 ->
  MakeColumnKey n d = MakeColumnKey n' d' -> n = n' /\ d = d'.
Proof. exact column_key_inj_lemma. Qed.
Print Assumptions C13_column_key_injective.

Theorem C13_column_key_updated :
  forall cols upd,
  (forall c d, In (c, d) cols -> Z.of_nat c < 2 ^ 31 - 1) ->
  ColumnKeyUpdated (keys_of cols) upd = true <->
  exists c d, In (c, d) cols /\ In (Z.of_nat c) upd.
Proof. exact ColumnKeyUpdated_spec. Qed.
Print Assumptions C13_column_key_updated.

Example C13_case :
  MakeColumnKey 0 true = -1 /\ ckColumn (-1) = 0 /\ ckReverse (-1) = true /\
  ColumnKeyUpdated (keys_of [(2%nat, true); (5%nat, false)]) [1; 5] = true /\
  ColumnKeyUpdated (keys_of [(2%nat, true); (5%nat, false)]) [1; 3] = false.
Proof. vm_compute. repeat split. Qed.
