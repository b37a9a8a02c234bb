(** Property C66: reading a row into a struct, engine/typedtable.go:72-148. *)

From Verif Require Import ModelTyped SpecTyped SpecRead LemmasBase LemmasKey LemmasValue LemmasIdent LemmasGob LemmasTyped LemmasTypedTable LemmasRead
  LemmasDemo LemmasDemoTable LemmasSelect LemmasDemoTyped LemmasDemoRead.

(** C66.  Every row, of any length and values: it is read exactly if each field
    can take its value, and this is what the fields hold then. *)
Theorem C66_reads : forall (F : Float32Lib) ti st r g g', made_for ti st ->
  (RowToStruct ti r g = Ok g' <-> gs_type g = st_name st /\ gs_type g' = st_name st /\ filled ti st r (gs_fields g')).
Proof. exact @read_exact. Qed.
Print Assumptions C66_reads.

(** Otherwise it panics. *)
Theorem C66_panics : forall (F : Float32Lib) ti st r g, made_for ti st ->
  RowToStruct ti r g = Panic \/ exists g', RowToStruct ti r g = Ok g'.
Proof. exact @read_panics_else. Qed.
Print Assumptions C66_panics.

(** What was read is a struct of the type. *)
Theorem C66_typed : forall (F : Float32Lib), Float32Lib_ok F ->
  forall ti st r g g', made_for ti st -> Forall wf_value r -> RowToStruct ti r g = Ok g' -> of_struct st g'.
Proof. exact @read_typed. Qed.
Print Assumptions C66_typed.

(** A row that the columns of the table admit is read and written again unchanged
    exactly if the fields can hold its values: an int8 needs a value of eight
    bits, which the column does not ask for. *)
Theorem C66_again : forall (F : Float32Lib) ti st r g, made_for ti st ->
  Forall2 admits (ti_types ti) r -> Forall wf_value r -> gs_type g = st_name st ->
  ((exists g', RowToStruct ti r g = Ok g' /\ structToRow ti (Some g') = Ok (Some r)) <->
   Forall2 (fun fd v => holds (fd_type fd) v) (st_fields st) r).
Proof. exact @read_again. Qed.
Print Assumptions C66_again.

(** What is stored in a column for a field of a struct: every field of a type that
    has a name. *)
Theorem C66_stored : forall ct v w, named_type v -> (fieldToValue ct v = Ok w <-> stored ct v w).
Proof. exact @stored_exact. Qed.
Print Assumptions C66_stored.

Example C66_stored_case :
  let text := {| ct_type := StringType; ct_size := 16; ct_fixed := false; ct_notnull := true |} in
  let number := {| ct_type := Int64Type; ct_size := 8; ct_fixed := false; ct_notnull := false |} in
  fieldToValue text (FInt KInt16 7) = Ok (VString (str "<int16 Value>")) /\ stored text (FInt KInt16 7) (VString (str "<int16 Value>")) /\
  fieldToValue text (FPtr KFloat64 None) = Ok (VString (str "<*float64 Value>")) /\ fieldToValue text (FPtr KString (Some (FString []))) = Ok (VString (str "<*string Value>")) /\ fieldToValue text (FBytes None) = Ok (VString (str "<[]uint8 Value>")) /\
  fieldToValue number (FPtr KInt32 (Some (FInt KInt32 5))) = Ok (VInt 5) /\ fieldToValue number (FPtr KString None) = Ok VNull /\
  fieldToValue number (FInt KInt64 5) = Panic.
Proof.
  split; [vm_compute; reflexivity|]. split; [|vm_compute; repeat split; reflexivity].
  constructor; [reflexivity|]. apply sa_other; [reflexivity|discriminate|vm_compute; reflexivity|vm_compute; discriminate].
Qed.

Example C66_case :
  made_for user_ti user_type /\ @of_struct demo_F user_type user1 /\
  @filled demo_F user_ti user_type [VInt 1; VString (str "ann"); VNull; VFloat one_half; VBool true] (gs_fields user1) /\
  @RowToStruct demo_F user_ti [VInt 1; VString (str "ann"); VNull; VFloat one_half; VBool true] user2 = Ok user1 /\
  @RowToStruct demo_F user_ti [VInt 1; VString (str "ann"); VNull] user2 = Panic /\
  @RowToStruct demo_F user_ti [VInt 1; VBool true; VNull; VFloat one_half] user2 = Panic /\
  Forall2 admits (ti_types user_ti) [VInt 1; VString (str "ann"); VNull; VFloat one_half] /\
  Forall wf_value [VInt 1; VString (str "ann"); VNull; VFloat one_half] /\
  Forall2 (fun fd v => @holds demo_F (fd_type fd) v) (st_fields user_type) [VInt 1; VString (str "ann"); VNull; VFloat one_half].
Proof.
  split; [exact user_made|]. split; [exact user1_of|]. split.
  - assert (@RowToStruct demo_F user_ti [VInt 1; VString (str "ann"); VNull; VFloat one_half; VBool true] user2 = Ok user1) as E by (vm_compute; reflexivity).
    apply (read_exact _ _ _ _ _ user_made) in E. exact (proj2 (proj2 E)).
  - split; [vm_compute; reflexivity|]. split; [vm_compute; reflexivity|]. split; [vm_compute; reflexivity|]. split; [|split].
    + repeat (apply Forall2_cons || apply Forall2_nil); cbn; repeat split; try reflexivity; try (vm_compute; congruence); intros; lia.
    + repeat (apply Forall_cons || apply Forall_nil); cbn; try exact I; unfold is_i64, is_u64, one_half; lia.
    + repeat (apply Forall2_cons || apply Forall2_nil); cbn; try exact I; auto.
Qed.

(** C66, refuted: an int8 field makes a column that admits any integer: a typed
    update stores 300, and the lookup reads 44. *)
Theorem C66_int8_refuted :
  made_for small_ti small_type /\ (forall F : Float32Lib, of_struct small_type (small 7 5)) /\
  Forall2 admits (ti_types small_ti) [VInt 7; VInt 300] /\ ~ Forall2 (fun fd v => @holds demo_F (fd_type fd) v) (st_fields small_type) [VInt 7; VInt 300] /\
  small_after 120 = (Ok (small 7 120, None), [[VInt 7; VInt 120]]) /\
  small_after 300 = (Ok (small 7 44, None), [[VInt 7; VInt 300]]).
Proof. exact small_refuted. Qed.
Print Assumptions C66_int8_refuted.
