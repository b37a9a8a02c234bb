(** Properties C09 - C12: types/value.go. *)

From Verif Require Import ModelKey SpecValue LemmasBase LemmasValue.

(** C09.  [Compare] always answers, swapping the arguments reverses the
    answer, and away from NaN and from integers mixed with floats it is a total
    order whose equality is equality of values (the two zeros being equal). *)
Theorem C09_compare_total : forall v w, exists c, Compare v w = Some c.
Proof. exact Compare_total_lemma. Qed.
Print Assumptions C09_compare_total.

Theorem C09_compare_antisymmetric :
  forall v w c, Compare v w = Some c -> Compare w v = Some (CompOpp c).
Proof. exact Compare_antisym_lemma. Qed.
Print Assumptions C09_compare_antisymmetric.

Theorem C09_compare_reflexive :
  forall v, ~ is_nan v -> wf_value v -> Compare v v = Some Eq.
Proof. exact Compare_reflexive_lemma. Qed.
Print Assumptions C09_compare_reflexive.

Theorem C09_compare_transitive :
  forall u v w a b c,
  wf_value u -> wf_value v -> wf_value w ->
  ~ is_nan u -> ~ is_nan v -> ~ is_nan w ->
  ~ mixed_numbers u v -> ~ mixed_numbers v w -> ~ mixed_numbers u w ->
  Compare u v = Some a -> Compare v w = Some b -> Compare u w = Some c ->
  (a = Lt -> b = Lt -> c = Lt) /\ (a = Eq -> c = b) /\ (b = Eq -> c = a).
Proof. exact Compare_trans_lemma. Qed.
Print Assumptions C09_compare_transitive.

Theorem C09_compare_equal :
  forall v w,
  wf_value v -> wf_value w -> ~ is_nan v -> ~ is_nan w -> ~ mixed_numbers v w ->
  (Compare v w = Some Eq <-> same_key_value v w).
Proof. exact Compare_eq_lemma. Qed.
Print Assumptions C09_compare_equal.

(** An integer of at most 53 bits is compared exactly with a float that holds
    an integer. *)
Theorem C09_compare_int_float :
  forall i q z, Z.abs i <= 2 ^ 53 -> is_u64 q -> float_is_int q z ->
  Compare (VInt i) (VFloat q) = Some (i ?= z).
Proof. exact Compare_int_float_exact. Qed.
Print Assumptions C09_compare_int_float.

(** Over all values [Compare] is not an order: equality is not transitive when
    integers and floats are mixed, and NaN equals every number. *)
Theorem C09_compare_mixed_refuted :
  exists u v w, wf_value u /\ wf_value v /\ wf_value w /\
    Compare u v = Some Eq /\ Compare v w = Some Eq /\ Compare u w = Some Lt.
Proof. exact Compare_mixed_witness. Qed.
Print Assumptions C09_compare_mixed_refuted.

Theorem C09_compare_nan_refuted :
  forall p v, is_u64 p -> is_nan (VFloat p) ->
  (exists i, v = VInt i) \/ (exists q, v = VFloat q) ->
  Compare (VFloat p) v = Some Eq.
Proof. exact Compare_nan_lemma. Qed.
Print Assumptions C09_compare_nan_refuted.

Example C09_case :
  Compare (VInt 3) (VString []) = Some Lt /\ Compare (VFloat (2 ^ 63)) (VFloat 0) = Some Eq /\
  float_is_int 4613937818241073152 3 /\ is_u64 4613937818241073152 /\
  Compare (VInt 4) (VFloat 4613937818241073152) = Some Gt /\
  is_nan (VFloat (2 ^ 63 - 1)).
Proof.
  split; [reflexivity|]. split; [reflexivity|]. split; [vm_compute; reflexivity|].
  split; [unfold is_u64; lia|]. split; [vm_compute; reflexivity|].
  exists (2 ^ 63 - 1). split; [reflexivity|vm_compute; reflexivity].
Qed.

(** C10.  What [ConvertValue] returns is admitted by the column, is NULL only
    for NULL, and is left alone by a second conversion; admitted values are
    left alone.  The hypothesis on lengths is needed because the length is
    compared in 32 bits. *)
Theorem C10_convert_conforms :
  forall (X : FloatLib) ct v w,
  FloatLib_ok X -> is_u32 (ct_size ct) -> wf_value v ->
  (forall s, w = VString s \/ w = VBytes s -> zlen s < 2 ^ 32) ->
  ConvertValue ct v = Ok w ->
  admits ct w /\ wf_value w /\ (w = VNull <-> v = VNull) /\ ConvertValue ct w = Ok w.
Proof. exact @convert_conforms_lemma. Qed.
Print Assumptions C10_convert_conforms.

Theorem C10_convert_accepts :
  forall (X : FloatLib) ct v, is_u32 (ct_size ct) -> admits ct v -> ConvertValue ct v = Ok v.
Proof. exact @convert_accepts_lemma. Qed.
Print Assumptions C10_convert_accepts.

Theorem C10_convert_no_panic :
  forall (X : FloatLib) ct v, ct_type ct <> UnknownType -> ConvertValue ct v <> Panic.
Proof. exact @ConvertValue_no_panic. Qed.
Print Assumptions C10_convert_no_panic.

Theorem C10_text_to_bool :
  forall (X : FloatLib) s b,
  CastValue BoolType (VString s) = Ok (VBool b) <->
  exists l t r, s = l ++ t ++ r /\ blanks l /\ blanks r /\ In t (bool_words b).
Proof. exact @cast_text_bool_lemma. Qed.
Print Assumptions C10_text_to_bool.

Theorem C10_int_float_int :
  forall (X : FloatLib) i, Z.abs i <= 2 ^ 53 ->
  exists p, CastValue Float64Type (VInt i) = Ok (VFloat p) /\
    CastValue Int64Type (VFloat p) = Ok (VInt i).
Proof. exact @cast_int_float_exact_lemma. Qed.
Print Assumptions C10_int_float_int.

Example C10_case :
  let X := FloatLib_example in
  FloatLib_ok X /\
  ConvertValue Int32ColType (VString (str " 2147483647 ")) = Ok (VInt 2147483647) /\
  ConvertValue Int32ColType (VString (str "2147483648")) = Err ErrIntRange /\
  ConvertValue Int32ColType VNull = Err ErrNotNull /\
  CastValue BoolType (VString (str " off ")) = Ok (VBool false) /\
  admits NullStringColType (VString (str "abc")) /\ wf_value (VString (str "abc")).
Proof.
  cbv zeta. split; [exact FloatLib_example_ok|]. repeat split; vm_compute; congruence.
Qed.

(** C11.  A converted row has one value per column: the converted values that
    were supplied, then NULLs; a row with too many values is rejected. *)
Theorem C11_convert_row :
  forall (X : FloatLib) cts r nrow,
  ConvertRow cts r = Ok nrow <->
  (length r <= length cts)%nat /\ length nrow = length cts /\
  (forall i ct v, nth_error cts i = Some ct -> nth_error r i = Some v ->
     exists w, nth_error nrow i = Some w /\ ConvertValue ct v = Ok w) /\
  (forall i, (length r <= i < length cts)%nat -> nth_error nrow i = Some VNull).
Proof. exact @convert_row_lemma. Qed.
Print Assumptions C11_convert_row.

Theorem C11_convert_row_too_long :
  forall (X : FloatLib) cts r,
  (length cts < length r)%nat -> ConvertRow cts r = Err ErrRowTooLong.
Proof. exact @convert_row_long_lemma. Qed.
Print Assumptions C11_convert_row_too_long.

(** Columns that are not supplied become NULL even if they are NOT NULL. *)
Theorem C11_not_null_refuted :
  forall X : FloatLib, exists cts r nrow ct,
    ConvertRow cts r = Ok nrow /\ nth_error cts 1 = Some ct /\
    ct_notnull ct = true /\ nth_error nrow 1 = Some VNull.
Proof. exact convert_row_null_witness. Qed.
Print Assumptions C11_not_null_refuted.

Example C11_case :
  let X := FloatLib_example in
  ConvertRow [Int64ColType; NullStringColType; BoolColType] [VString (str "12"); VInt 5]
    = Ok [VInt 12; VString (str "5"); VNull] /\
  ConvertRow [Int64ColType] [VString (str "x")] = Err ErrCast /\
  ConvertRow [Int64ColType] [VInt 1; VInt 2] = Err ErrRowTooLong.
Proof. vm_compute. repeat split. Qed.

(** C12.  Text converts to an integer exactly when it is a decimal numeral in
    range, with blanks around it; every integer converts to text and back. *)
Theorem C12_text_to_int :
  forall (X : FloatLib) s i,
  CastValue Int64Type (VString s) = Ok (VInt i) <->
  exists a t b, s = a ++ t ++ b /\ blanks a /\ blanks b /\ int_text t i /\ is_i64 i.
Proof. exact @cast_text_int_lemma. Qed.
Print Assumptions C12_text_to_int.

Theorem C12_text_to_int_fails :
  forall (X : FloatLib) s,
  (forall i, CastValue Int64Type (VString s) <> Ok (VInt i)) ->
  CastValue Int64Type (VString s) = Err ErrCast.
Proof. exact @cast_text_int_fails_lemma. Qed.
Print Assumptions C12_text_to_int_fails.

Theorem C12_int_text_int :
  forall (X : FloatLib) i a b, is_i64 i -> blanks a -> blanks b ->
  exists s, CastValue StringType (VInt i) = Ok (VString s) /\ int_text s i /\
    CastValue Int64Type (VString (a ++ s ++ b)) = Ok (VInt i).
Proof. exact @cast_int_round_trip_lemma. Qed.
Print Assumptions C12_int_text_int.

Example C12_case :
  let X := FloatLib_example in
  CastValue StringType (VInt (- 2 ^ 63)) = Ok (VString (str "-9223372036854775808")) /\
  CastValue Int64Type (VString (str " +007 ")) = Ok (VInt 7) /\
  CastValue Int64Type (VString (str "9223372036854775808")) = Err ErrCast /\
  CastValue Int64Type (VString (str "1_000")) = Err ErrCast /\
  is_i64 (- 2 ^ 63) /\ blanks [x20; x0a].
Proof.
  cbv zeta. repeat split; try (vm_compute; congruence).
  repeat constructor; unfold blank; tauto.
Qed.
