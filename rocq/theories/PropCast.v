(** C63: casts and conversions give exactly the values they should. *)

From Verif Require Import ModelColumn SpecCast LemmasValue LemmasCast.

(** The result of a cast is the one the relation between values says: the float
    nearest to an integer (ties to even), an integer without the fraction of a
    float, the usual numeral, bytes as text just if they are UTF-8, and so on. *)
Theorem C63_cast :
  forall (X : FloatLib) vt v w, wf_value v -> (CastValue vt v = Ok w <-> casts vt v w).
Proof. exact @cast_spec. Qed.
Print Assumptions C63_cast.

(** Without such a value the cast is an error. *)
Theorem C63_cast_fails :
  forall (X : FloatLib) vt v, wf_value v -> vt <> UnknownType ->
  (CastValue vt v = Err ErrCast <-> forall w, ~ casts vt v w).
Proof. exact @cast_fails. Qed.
Print Assumptions C63_cast_fails.

(** Values compare as they should: integers as integers, floats as IEEE 754 says,
    an integer and a float as the float nearest to the integer and the other one,
    texts by their first different bytes. *)
Theorem C09_compare_exact :
  forall v w c, wf_value v -> wf_value w -> (Compare v w = Some c <-> compares v w c).
Proof. exact @compare_exact. Qed.
Print Assumptions C09_compare_exact.

Example C09_compare_exact_case :
  Compare (VFloat 4607182418800017408) (VFloat 9221120237041090560) = Some Eq /\ ieee 4607182418800017408 9221120237041090560 = Eq /\
  Compare (VFloat 4607182418800017408) (VFloat 13830554455654793216) = Some Gt /\
  Compare (VInt 9007199254740993) (VFloat 4845873199050653696) = Some Eq /\
  Compare (VString (str "ab")) (VString (str "abc")) = Some Lt /\ before (str "ab") (str "abc") /\
  Compare (VBytes (str "b")) (VBytes (str "abc")) = Some Gt /\ Compare (VBytes []) (VString (str "z")) = Some Gt.
Proof. repeat match goal with |- _ /\ _ => split end; try (vm_compute; reflexivity). left. now exists x63, []. Qed.

(** A conversion for a column gives the cast value if the column admits it. *)
Theorem C63_convert :
  forall (X : FloatLib) ct v w,
  wf_value v -> ct_type ct <> UnknownType -> short_texts (ct_type ct) v ->
  (ConvertValue ct v = Ok w <-> casts (ct_type ct) v w /\ admits ct w).
Proof. exact @convert_spec. Qed.
Print Assumptions C63_convert.

(** And an error says why it is not: NULL, no cast, too long, or out of
    range. *)
Theorem C63_refused :
  forall (X : FloatLib) ct v e,
  wf_value v -> ct_type ct <> UnknownType -> short_texts (ct_type ct) v ->
  (ConvertValue ct v = Err e <-> refused ct v e).
Proof. exact @convert_refused. Qed.
Print Assumptions C63_refused.

(** The error of a row is that of its first value that is refused. *)
Theorem C63_row_refused :
  forall (X : FloatLib) cts r e,
  ConvertRow cts r = Err e <->
  (length cts < length r)%nat /\ e = ErrRowTooLong \/
  (length r <= length cts)%nat /\
  exists i ct v, nth_error cts i = Some ct /\ nth_error r i = Some v /\ ConvertValue ct v = Err e /\
    forall j ct' v', (j < i)%nat -> nth_error cts j = Some ct' -> nth_error r j = Some v' ->
      exists w, ConvertValue ct' v' = Ok w.
Proof. exact @convert_row_err. Qed.
Print Assumptions C63_row_refused.

(** Lengths are compared in 32 bits: a text of 2^32 bytes passes for a column
    of ten. *)
Theorem C63_length_refuted :
  forall X : FloatLib,
  exists ct v w, ct_type ct = StringType /\ ConvertValue ct v = Ok w /\ ~ admits ct w.
Proof. exact @convert_long_witness. Qed.
Print Assumptions C63_length_refuted.

(** A cast to a float may change the number without an error. *)
Theorem C63_same_number_refuted :
  forall X : FloatLib,
  exists p, CastValue Float64Type (VInt 9007199254740993) = Ok (VFloat p) /\
    float_is_int p 9007199254740992.
Proof. exact @int_float_witness. Qed.
Print Assumptions C63_same_number_refuted.

(** A float that is not a number of any size is cast to an integer. *)
Theorem C63_finite_refuted :
  forall X : FloatLib,
  exists p i, scaled p = None /\ is_u64 p /\ CastValue Int64Type (VFloat p) = Ok (VInt i).
Proof. exact @float_int_witness. Qed.
Print Assumptions C63_finite_refuted.

Example C63_case :
  let X := FloatLib_example in
  nearest 9007199254740993 4845873199050653696 /\
  nearest 9007199254740995 4845873199050653698 /\
  truncated 13836183955189006336 (-2) /\
  decimal (-120) (str "-120") /\
  utf8_text [xc3; xa9; xe2; x82; xac] /\ ~ utf8_text [xc3] /\ ~ utf8_text [xed; xa0; x80] /\
  casts Float64Type (VInt 9007199254740993) (VFloat 4845873199050653696) /\
  wf_value (VInt 9007199254740993) /\ wf_value (VFloat 13836183955189006336) /\
  short_texts StringType (VInt 70000) /\
  refused {| ct_type := StringType; ct_size := 4; ct_fixed := false; ct_notnull := true |} (VInt 70000) ErrTooLong.
Proof.
  cbv zeta. pose (X := FloatLib_example).
  assert (nearest 9007199254740993 4845873199050653696) as N.
  { apply nearest_spec; [split; vm_compute; congruence|vm_compute; reflexivity]. }
  assert (decimal 70000 (str "70000")) as D.
  { apply decimal_spec; [split; vm_compute; congruence|vm_compute; reflexivity]. }
  split; [exact N|].
  split; [apply nearest_spec; [split; vm_compute; congruence|vm_compute; reflexivity]|].
  split; [apply truncated_spec; [split; vm_compute; congruence|split; vm_compute; reflexivity]|].
  split; [apply decimal_spec; [split; vm_compute; congruence|vm_compute; reflexivity]|].
  split; [now apply utf8_valid_spec|].
  split; [intros H; now apply utf8_valid_spec in H|].
  split; [intros H; now apply utf8_valid_spec in H|].
  split; [now constructor|].
  split; [split; vm_compute; congruence|]. split; [split; vm_compute; congruence|].
  split.
  - intros s [H|H]; inversion H as [| | | |i t Ht| | | | | | | | | | |]; subst.
    rewrite (decimal_unique _ _ _ Ht D). reflexivity.
  - exists (str "70000"). split; [reflexivity|]. left. now constructor.
Qed.
