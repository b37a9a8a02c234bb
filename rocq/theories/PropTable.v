(** Properties C22 - C28 and C30: tables of storage/basic/basic.go. *)

From Verif Require Import ModelStore SpecTable LemmasBase LemmasKey LemmasValue LemmasIdent LemmasGob LemmasWorld
  LemmasTableFacts LemmasTableCalls LemmasTableTypes LemmasDemo LemmasDemoTable LemmasTableRefuted.

(** C22.  Every open table has a key on some of its columns. *)
Theorem C22_table_has_key : forall (X : FloatLib) (L : CaseLib) (G : GobLib),
  FloatLib_ok X -> GobLib_ok G -> forall h w x t tb,
  orderly (tb_tid tb) h w -> view w x = Some t -> In tb (tables_of w x) -> exists kc, keyed tb kc.
Proof. exact @table_keyed. Qed.
Print Assumptions C22_table_has_key.

(** The rows of a table are in strictly increasing order of the key. *)
Theorem C22_rows_in_key_order :
  forall (X : FloatLib) (L : CaseLib) (G : GobLib), FloatLib_ok X -> GobLib_ok G ->
  forall h w x t tb kc,
  orderly (tb_tid tb) h w -> view w x = Some t -> In tb (tables_of w x) ->
  keyed tb kc -> StronglySorted (fun r1 r2 => key_order kc r1 r2 = Lt) (rows_in t (tb_tid tb)).
Proof. exact @rows_ordered. Qed.
Print Assumptions C22_rows_in_key_order.

(** A scan that succeeds gives exactly the rows wanted, in the order of the key:
    those within both bounds, which belong to the range, for which the predicate
    holds. *)
Theorem C22_scan_exact :
  forall (X : FloatLib) (L : CaseLib) (G : GobLib), FloatLib_ok X -> GobLib_ok G ->
  forall h w x t i tb kc cols mn mx p w',
  orderly (tb_tid tb) h w -> view w x = Some t -> nth_error (tables_of w x) i = Some tb -> keyed tb kc ->
  bound_wf mn -> bound_wf mx ->
  step w (Call x (CRows i cols mn mx p)) = (ODone, w') ->
  view w' x = Some t /\
  exists rs, rowsets_of w' x = rowsets_of w x ++ [rs] /\ rs_tbl rs = i /\ rs_cols rs = cols /\ rs_next rs = 0 /\
    map it_row (rs_items rs) = filter (wanted kc mn mx p) (rows_in t (tb_tid tb)).
Proof. exact @scan_exact. Qed.
Print Assumptions C22_scan_exact.

(** A scan succeeds if the bounds have all columns of the key and the predicate
    is for the type of its column and none of the rows in range has NULL there. *)
Theorem C22_scan_succeeds :
  forall (X : FloatLib) (L : CaseLib) (G : GobLib), FloatLib_ok X -> GobLib_ok G ->
  forall h w x t i tb kc cols mn mx p,
  orderly (tb_tid tb) h w -> view w x = Some t -> nth_error (tables_of w x) i = Some tb -> keyed tb kc ->
  bound_wf mn -> bound_wf mx -> bound_fits kc mn -> bound_fits kc mx ->
  (forall p0, p = Some p0 -> exists ct, 0 <= p_column p0 /\
     nth_error (tt_types (tb_tt tb)) (Z.to_nat (p_column p0)) = Some ct /\ has_method p0 (ct_type ct) /\
     forall r, In r (rows_in t (tb_tid tb)) -> in_range kc mn mx r = true ->
       of_type (ct_type ct) (nth (Z.to_nat (p_column p0)) r VNull)) ->
  fst (step w (Call x (CRows i cols mn mx p))) = ODone.
Proof. exact @scan_succeeds. Qed.
Print Assumptions C22_scan_succeeds.

(** The rows with keys from 2, of three. *)
Example C22_case :
  let w := demo_world (demo_use []) in
  @orderly demo_X demo_L demo_G 20 (demo_hist (demo_use [])) w /\ nth_error (tables_of w 1) 0 = Some demo_table /\
  keyed demo_table demo_kc /\ bound_wf (Some [VInt 2]) /\ bound_fits demo_kc (Some [VInt 2]) /\
  rows_in (view_of (demo_use [])) 20 = demo_sorted /\
  filter (wanted demo_kc (Some [VInt 2]) None None) demo_sorted = skipn 1 demo_sorted /\
  fst (@step demo_X demo_L demo_G w (Call 1 (CRows 0 None (Some [VInt 2]) None None))) = ODone /\
  option_map (fun rs => map it_row (rs_items rs))
    (nth_error (rowsets_of (snd (@step demo_X demo_L demo_G w (Call 1 (CRows 0 None (Some [VInt 2]) None None)))) 1) 0)
    = Some (skipn 1 demo_sorted).
Proof.
  cbv zeta. split; [apply demo_orderly; vm_compute; reflexivity|]. split; [vm_compute; reflexivity|].
  split; [exact demo_keyed|]. split; [intros r [= <-]; repeat constructor; simpl; unfold is_i64; lia|].
  split; [intros r [= <-] c d [[= <- <-]|[]]; simpl; lia|]. do 3 (split; [vm_compute; reflexivity|]). vm_compute. reflexivity.
Qed.

(** A predicate with the method for the type of its column does not suffice: if
    the column has a NULL the scan panics. *)
Theorem C22_null_predicate_refuted :
  exists (X : FloatLib) (L : CaseLib) (G : GobLib) h w x t i tb kc p ct,
  libs_ok X L G /\ orderly (tb_tid tb) h w /\ view w x = Some t /\ nth_error (tables_of w x) i = Some tb /\ keyed tb kc /\
  nth_error (tt_types (tb_tt tb)) (Z.to_nat (p_column p)) = Some ct /\ has_method p (ct_type ct) /\ ct_notnull ct = false /\
  fst (step w (Call x (CRows i None None None (Some p)))) = OPanic.
Proof. exact null_scan. Qed.
Print Assumptions C22_null_predicate_refuted.

(** C23.  No two rows of a table have the same key. *)
Theorem C23_key_unique :
  forall (X : FloatLib) (L : CaseLib) (G : GobLib), FloatLib_ok X -> GobLib_ok G ->
  forall h w x t tb kc,
  orderly (tb_tid tb) h w -> view w x = Some t -> In tb (tables_of w x) ->
  keyed tb kc -> forall a b r1 r2, nth_error (rows_in t (tb_tid tb)) a = Some r1 ->
  nth_error (rows_in t (tb_tid tb)) b = Some r2 -> same_key kc r1 r2 -> a = b.
Proof. exact @rows_unique. Qed.
Print Assumptions C23_key_unique.

(** Inserting a row whose key is there already fails and changes nothing; other
    rows that can be converted are inserted. *)
Theorem C23_duplicate_refused :
  forall (X : FloatLib) (L : CaseLib) (G : GobLib), FloatLib_ok X -> GobLib_ok G ->
  forall h w x t i tb kc r,
  orderly (tb_tid tb) h w -> view w x = Some t -> nth_error (tables_of w x) i = Some tb -> keyed tb kc ->
  Forall wf_value r ->
  let out := fst (step w (Call x (CInsert i [r]))) in
  let w' := snd (step w (Call x (CInsert i [r]))) in
  match ConvertRow (tt_types (tb_tt tb)) r with
  | Ok n =>
      (exists r0, In r0 (rows_in t (tb_tid tb)) /\ same_key kc n r0) /\ out = OErr ErrDuplicateKey /\ view w' x = Some t \/
      (~ exists r0, In r0 (rows_in t (tb_tid tb)) /\ same_key kc n r0) /\ out = ODone
  | Err e => out = OErr e /\ view w' x = Some t
  | Panic => out = OPanic /\ view w' x = Some t
  end.
Proof. exact @insert_single. Qed.
Print Assumptions C23_duplicate_refused.

Example C23_case :
  let w := demo_world (demo_use []) in
  @orderly demo_X demo_L demo_G 20 (demo_hist (demo_use [])) w /\ nth_error (tables_of w 1) 0 = Some demo_table /\
  rows_in (view_of (demo_use [])) 20 = demo_sorted /\
  same_key demo_kc [VInt 2; VString (str "x")] [VInt 2; VNull] /\
  fst (@step demo_X demo_L demo_G w (Call 1 (CInsert 0 [[VInt 2; VString (str "x")]]))) = OErr ErrDuplicateKey /\
  fst (@step demo_X demo_L demo_G w (Call 1 (CInsert 0 [[VInt 4; VString (str "x")]]))) = ODone.
Proof.
  cbv zeta. split; [apply demo_orderly; vm_compute; reflexivity|]. do 2 (split; [vm_compute; reflexivity|]).
  split; [intros c d [[= <- <-]|[]]; left; reflexivity|]. split; vm_compute; reflexivity.
Qed.

(** If the id of a dropped table is used again for a table with another key, two
    rows may have the same key. *)
Theorem C23_recreated_refuted :
  exists (X : FloatLib) (L : CaseLib) (G : GobLib) h w x t i tb kc a b r1 r2,
  libs_ok X L G /\ ran h w /\ Forall op_typed (map fst h) /\ view w x = Some t /\
  nth_error (tables_of w x) i = Some tb /\ keyed tb kc /\
  nth_error (rows_in t (tb_tid tb)) a = Some r1 /\ nth_error (rows_in t (tb_tid tb)) b = Some r2 /\
  same_key kc r1 r2 /\ a <> b.
Proof. exact unique_after_drop. Qed.
Print Assumptions C23_recreated_refuted.

(** C24.  A successful insert adds exactly the rows given, converted to the types
    of the columns, and changes nothing else. *)
Theorem C24_insert_exact :
  forall (X : FloatLib) (L : CaseLib) (G : GobLib), FloatLib_ok X -> GobLib_ok G ->
  forall h w x t i tb kc rs w',
  orderly (tb_tid tb) h w -> view w x = Some t -> nth_error (tables_of w x) i = Some tb -> keyed tb kc ->
  step w (Call x (CInsert i rs)) = (ODone, w') ->
  exists t' new, view w' x = Some t' /\ tables_of w' x = tables_of w x /\
    Forall2 (fun r n => ConvertRow (tt_types (tb_tt tb)) r = Ok n) rs new /\
    Permutation (rows_in t' (tb_tid tb)) (new ++ rows_in t (tb_tid tb)) /\
    only_table (tb_tid tb) t t'.
Proof. exact @insert_exact. Qed.
Print Assumptions C24_insert_exact.

(** Inserting into a table succeeds or gives an error. *)
Theorem C24_insert_no_panic :
  forall (X : FloatLib) (L : CaseLib) (G : GobLib), FloatLib_ok X -> GobLib_ok G ->
  forall h w x t i tb kc rs out w',
  orderly (tb_tid tb) h w -> view w x = Some t -> nth_error (tables_of w x) i = Some tb -> keyed tb kc ->
  Forall (fun ct => ct_type ct <> UnknownType) (tt_types (tb_tt tb)) ->
  step w (Call x (CInsert i rs)) = (out, w') -> out = ODone \/ exists e, out = OErr e.
Proof. exact @insert_no_panic. Qed.
Print Assumptions C24_insert_no_panic.

Example C24_case :
  let ops := demo_use [Call 1 (CInsert 0 [[VInt 9; VString (str "x")]; [VString (str "0"); VNull]])] in
  @orderly demo_X demo_L demo_G 20 (demo_hist (demo_use [])) (demo_world (demo_use [])) /\
  nth_error (tables_of (demo_world (demo_use [])) 1) 0 = Some demo_table /\
  last (demo_outs ops) OPanic = ODone /\
  rows_in (view_of ops) 20 = [VInt 0; VNull] :: demo_sorted ++ [[VInt 9; VString (str "x")]].
Proof.
  cbv zeta. split; [apply demo_orderly; vm_compute; reflexivity|]. repeat split; vm_compute; reflexivity.
Qed.

(** C25.  The row reference given for the current row denotes the row given by the
    last call of Next. *)
Theorem C25_current_denotes :
  forall (X : FloatLib) (L : CaseLib) (G : GobLib), FloatLib_ok X -> GobLib_ok G ->
  forall h w x t j rs i tb kc w',
  orderly (tb_tid tb) h w -> view w x = Some t -> nth_error (rowsets_of w x) j = Some rs -> rs_tbl rs = i ->
  nth_error (tables_of w x) i = Some tb -> keyed tb kc ->
  step w (Call x (CCurrent j)) = (ODone, w') ->
  view w' x = Some t /\
  exists r rr, nth_error (map it_row (rs_items rs)) (Z.to_nat (rs_next rs - 1)) = Some r /\ 0 < rs_next rs /\
    refs_of w' x = refs_of w x ++ [rr] /\ rr_tbl rr = i /\ denotes kc rr r.
Proof. exact @current_denotes. Qed.
Print Assumptions C25_current_denotes.

(** Rows that a reference denotes agree on the key, so by C23 it denotes at most
    one row of the table. *)
Theorem C25_denotes_one : forall kc rr r1 r2, small_cols kc -> Forall wf_value r1 -> Forall wf_value r2 ->
  denotes kc rr r1 -> denotes kc rr r2 -> same_key kc r1 r2.
Proof. exact denotes_same. Qed.
Print Assumptions C25_denotes_one.

(** Delete removes the row denoted and nothing else; it panics if there is none. *)
Theorem C25_delete_exact :
  forall (X : FloatLib) (L : CaseLib) (G : GobLib), FloatLib_ok X -> GobLib_ok G ->
  forall h w x t j rr tb kc,
  orderly (tb_tid tb) h w -> view w x = Some t -> nth_error (refs_of w x) j = Some rr ->
  nth_error (tables_of w x) (rr_tbl rr) = Some tb -> keyed tb kc ->
  let out := fst (step w (Call x (CDelete j))) in
  let w' := snd (step w (Call x (CDelete j))) in
  (forall r, In r (rows_in t (tb_tid tb)) -> denotes kc rr r ->
     out = ODone /\ exists t', view w' x = Some t' /\
       Permutation (rows_in t (tb_tid tb)) (r :: rows_in t' (tb_tid tb)) /\ only_table (tb_tid tb) t t') /\
  ((forall r, In r (rows_in t (tb_tid tb)) -> ~ denotes kc rr r) -> out = OPanic /\ view w' x = Some t).
Proof. exact @delete_exact. Qed.
Print Assumptions C25_delete_exact.

(** Update changes the row denoted and nothing else.  If the key changes, and the
    row cannot be converted or its new key is there already, the row is lost
    (see C26). *)
Theorem C25_update_exact :
  forall (X : FloatLib) (L : CaseLib) (G : GobLib), FloatLib_ok X -> GobLib_ok G ->
  forall h w x t j rr tb kc cols vals r,
  orderly (tb_tid tb) h w -> view w x = Some t -> nth_error (refs_of w x) j = Some rr ->
  nth_error (tables_of w x) (rr_tbl rr) = Some tb -> keyed tb kc ->
  Forall wf_value vals -> length cols = length vals ->
  Forall (fun c => 0 <= c < zlen (tt_types (tb_tt tb))) cols ->
  In r (rows_in t (tb_tid tb)) -> denotes kc rr r ->
  exists t', view (snd (step w (Call x (CUpdate j cols vals)))) x = Some t' /\
    updated tb kc t r cols vals (fst (step w (Call x (CUpdate j cols vals)))) t'.
Proof. exact @update_updated. Qed.
Print Assumptions C25_update_exact.

(** Update panics, and changes nothing, if there are not as many values as
    columns, a column is not there, or the row is not there. *)
Theorem C25_update_panics :
  forall (X : FloatLib) (L : CaseLib) (G : GobLib), FloatLib_ok X -> GobLib_ok G ->
  forall h w x t j rr tb kc cols vals,
  orderly (tb_tid tb) h w -> view w x = Some t -> nth_error (refs_of w x) j = Some rr ->
  nth_error (tables_of w x) (rr_tbl rr) = Some tb -> keyed tb kc ->
  length cols <> length vals \/ (exists c, In c cols /\ ~ 0 <= c < zlen (tt_types (tb_tt tb))) \/
  (forall r, In r (rows_in t (tb_tid tb)) -> ~ denotes kc rr r) ->
  fst (step w (Call x (CUpdate j cols vals))) = OPanic /\
  view (snd (step w (Call x (CUpdate j cols vals)))) x = Some t.
Proof. exact @update_panics. Qed.
Print Assumptions C25_update_panics.

(** The first row is denoted; delete it, or update its second column, or its
    key. *)
Example C25_case :
  let w := demo_world (demo_use demo_ref) in
  let rr := {| rr_tbl := 0; rr_key := encodeKeyValue [] (VInt 1) false |} in
  @orderly demo_X demo_L demo_G 20 (demo_hist (demo_use demo_ref)) w /\ nth_error (tables_of w 1) 0 = Some demo_table /\
  nth_error (refs_of w 1) 0 = Some rr /\ denotes demo_kc rr [VInt 1; VString (str "one")] /\
  rows_in (view_of (demo_use (demo_ref ++ [Call 1 (CDelete 0)]))) 20 = skipn 1 demo_sorted /\
  rows_in (view_of (demo_use (demo_ref ++ [Call 1 (CUpdate 0 [1] [VNull])]))) 20 = [VInt 1; VNull] :: skipn 1 demo_sorted /\
  rows_in (view_of (demo_use (demo_ref ++ [Call 1 (CUpdate 0 [0] [VInt 7])]))) 20 =
    skipn 1 demo_sorted ++ [[VInt 7; VString (str "one")]].
Proof.
  cbv zeta. split; [apply demo_orderly; vm_compute; reflexivity|]. repeat split; vm_compute; reflexivity.
Qed.

(** C26.  An insert that fails is not without effect. *)
Theorem C26_insert_atomic_refuted :
  exists (X : FloatLib) (L : CaseLib) (G : GobLib) h w x t i tb kc rs e w' t',
  libs_ok X L G /\ orderly (tb_tid tb) h w /\ view w x = Some t /\ nth_error (tables_of w x) i = Some tb /\ keyed tb kc /\
  step w (Call x (CInsert i rs)) = (OErr e, w') /\ view w' x = Some t' /\
  length (rows_in t' (tb_tid tb)) <> length (rows_in t (tb_tid tb)).
Proof. exact insert_not_atomic. Qed.
Print Assumptions C26_insert_atomic_refuted.

(** Neither is an update that fails: the row is lost. *)
Theorem C26_update_atomic_refuted :
  exists (X : FloatLib) (L : CaseLib) (G : GobLib) h w x t j rr tb kc cols vals e w' t' r,
  libs_ok X L G /\ orderly (tb_tid tb) h w /\ view w x = Some t /\ nth_error (refs_of w x) j = Some rr /\
  nth_error (tables_of w x) (rr_tbl rr) = Some tb /\ keyed tb kc /\ In r (rows_in t (tb_tid tb)) /\ denotes kc rr r /\
  step w (Call x (CUpdate j cols vals)) = (OErr e, w') /\ view w' x = Some t' /\ ~ In r (rows_in t' (tb_tid tb)).
Proof. exact update_not_atomic. Qed.
Print Assumptions C26_update_atomic_refuted.

(** What is left by an insert that fails: the rows before the first that cannot
    be inserted, and the error tells why that one cannot. *)
Theorem C26_insert_fails :
  forall (X : FloatLib) (L : CaseLib) (G : GobLib), FloatLib_ok X -> GobLib_ok G ->
  forall h w x t i tb kc rs e w',
  orderly (tb_tid tb) h w -> view w x = Some t -> nth_error (tables_of w x) i = Some tb -> keyed tb kc ->
  Forall (Forall wf_value) rs ->
  step w (Call x (CInsert i rs)) = (OErr e, w') ->
  exists t' rs1 bad rs2 new, view w' x = Some t' /\ rs = rs1 ++ bad :: rs2 /\
    Forall2 (fun r n => ConvertRow (tt_types (tb_tt tb)) r = Ok n) rs1 new /\
    Permutation (rows_in t' (tb_tid tb)) (new ++ rows_in t (tb_tid tb)) /\
    only_table (tb_tid tb) t t' /\
    (ConvertRow (tt_types (tb_tt tb)) bad = Err e \/
     e = ErrDuplicateKey /\ exists n r0, ConvertRow (tt_types (tb_tt tb)) bad = Ok n /\
       In r0 (new ++ rows_in t (tb_tid tb)) /\ same_key kc n r0).
Proof. exact @insert_fails. Qed.
Print Assumptions C26_insert_fails.

Example C26_case :
  let rs := [[VInt 7; VNull]; [VInt 1; VNull]; [VInt 8; VNull]] in
  let ops := demo_use [Call 1 (CInsert 0 rs)] in
  @orderly demo_X demo_L demo_G 20 (demo_hist (demo_use [])) (demo_world (demo_use [])) /\
  last (demo_outs ops) OPanic = OErr ErrDuplicateKey /\
  rows_in (view_of ops) 20 = demo_sorted ++ [[VInt 7; VNull]].
Proof.
  cbv zeta. split; [apply demo_orderly; vm_compute; reflexivity|]. repeat split; vm_compute; reflexivity.
Qed.

(** C27.  Rows of a table need not satisfy the types of its columns. *)
Theorem C27_stored_types_refuted :
  exists (X : FloatLib) (L : CaseLib) (G : GobLib) h w x t tb,
  libs_ok X L G /\ orderly (tb_tid tb) h w /\ view w x = Some t /\ In tb (tables_of w x) /\
  ~ Forall (Forall2 storable (tt_types (tb_tt tb))) (rows_in t (tb_tid tb)).
Proof. exact update_not_checked. Qed.
Print Assumptions C27_stored_types_refuted.

(** They do if there are no updates: only updates that assign no key column
    are not checked. *)
Theorem C27_inserted_rows_typed :
  forall (X : FloatLib) (L : CaseLib) (G : GobLib), FloatLib_ok X -> GobLib_ok G ->
  forall h w x t tb,
  orderly (tb_tid tb) h w -> Forall no_update (map fst h) -> view w x = Some t -> In tb (tables_of w x) ->
  Forall (Forall2 storable (tt_types (tb_tt tb))) (rows_in t (tb_tid tb)).
Proof. exact @rows_storable. Qed.
Print Assumptions C27_inserted_rows_typed.

(** Rows always have as many values as the table has columns, all within the ranges of Go. *)
Theorem C27_row_width :
  forall (X : FloatLib) (L : CaseLib) (G : GobLib), FloatLib_ok X -> GobLib_ok G ->
  forall h w x t tb,
  orderly (tb_tid tb) h w -> view w x = Some t -> In tb (tables_of w x) ->
  Forall (fun r => length r = length (tt_types (tb_tt tb)) /\ Forall wf_value r) (rows_in t (tb_tid tb)).
Proof. exact @rows_width. Qed.
Print Assumptions C27_row_width.

Example C27_case :
  @orderly demo_X demo_L demo_G 20 (demo_hist (demo_use [])) (demo_world (demo_use [])) /\
  Forall no_update (map fst (demo_hist (demo_use []))) /\
  In demo_table (tables_of (demo_world (demo_use [])) 1) /\ rows_in (view_of (demo_use [])) 20 = demo_sorted.
Proof.
  split; [apply demo_orderly; vm_compute; reflexivity|]. split; [rewrite demo_fst; repeat constructor|].
  split; [vm_compute; left; reflexivity|vm_compute; reflexivity].
Qed.

(** C28.  A table created after another with its id was dropped may have rows. *)
Theorem C28_drop_removes_rows_refuted :
  exists (X : FloatLib) (L : CaseLib) (G : GobLib) h w x t tid tn cn ct p w' t',
  libs_ok X L G /\ ran h w /\ Forall op_typed (map fst h) /\ view w x = Some t /\ ~ exists_in t tid /\
  step w (Call x (CCreateTable tid tn cn ct p)) = (ODone, w') /\ view w' x = Some t' /\ rows_in t' tid <> [].
Proof. exact drop_keeps_rows. Qed.
Print Assumptions C28_drop_removes_rows_refuted.

(** A handle on a table can be used after the table was dropped. *)
Theorem C28_handle_refuted :
  exists (X : FloatLib) (L : CaseLib) (G : GobLib) h w x t i tb r,
  libs_ok X L G /\ orderly (tb_tid tb) h w /\ view w x = Some t /\ nth_error (tables_of w x) i = Some tb /\
  ~ exists_in t (tb_tid tb) /\ fst (step w (Call x (CInsert i [r]))) = ODone.
Proof. exact handle_survives. Qed.
Print Assumptions C28_handle_refuted.

(** A table is empty when created, unless its id was used for a table that was
    dropped. *)
Theorem C28_created_empty :
  forall (X : FloatLib) (L : CaseLib) (G : GobLib), FloatLib_ok X -> GobLib_ok G ->
  forall h w x t tid tn cn ct p w',
  ran h w -> Forall op_typed (map fst h) -> dropped tid h = false -> view w x = Some t ->
  op_typed (Call x (CCreateTable tid tn cn ct p)) ->
  step w (Call x (CCreateTable tid tn cn ct p)) = (ODone, w') ->
  exists t', view w' x = Some t' /\ rows_in t' tid = [] /\ exists_in t' tid /\ ~ exists_in t tid.
Proof. exact @create_empty. Qed.
Print Assumptions C28_created_empty.

Example C28_case :
  let ops := demo_names ++ [Begin 0] in
  @ran demo_X demo_L demo_G (demo_hist ops) (demo_world ops) /\ Forall op_typed (map fst (demo_hist ops)) /\
  dropped 20 (demo_hist ops) = false /\ op_typed (Call 0 demo_create) /\
  fst (@step demo_X demo_L demo_G (demo_world ops) (Call 0 demo_create)) = ODone.
Proof.
  cbv zeta. split; [apply demo_ran|]. split; [rewrite demo_fst; apply typed_all; vm_compute; reflexivity|].
  split; [vm_compute; reflexivity|]. split; [apply typedb_ok; vm_compute; reflexivity|vm_compute; reflexivity].
Qed.

(** C30.  Creating a table: it panics if the table is there already; otherwise it
    succeeds if the key is on columns of the table and the reserved column name
    is used as it should. *)
Theorem C30_create_outcome :
  forall (X : FloatLib) (L : CaseLib) (G : GobLib), FloatLib_ok X -> GobLib_ok G ->
  forall h w x t tid tn cn ct kc,
  ran h w -> Forall op_typed (map fst h) -> view w x = Some t -> is_u32 tid -> small_cols kc ->
  let out := fst (step w (Call x (CCreateTable tid tn cn ct (Some (keys_of kc))))) in
  (exists_in t tid -> out = OPanic) /\
  (~ exists_in t tid -> EngineTableId <= tid -> length cn = length ct ->
     (~ rowid_ok cn ct (keys_of kc) -> out = OErr ErrRowIdColumn) /\
     (rowid_ok cn ct (keys_of kc) -> Forall (fun cd => (fst cd < length cn)%nat) kc -> out = ODone)).
Proof. exact @create_outcome. Qed.
Print Assumptions C30_create_outcome.

(** Creating a table records its attributes and changes nothing else. *)
Theorem C30_create_records :
  forall (X : FloatLib) (L : CaseLib) (G : GobLib), FloatLib_ok X -> GobLib_ok G ->
  forall h w x t tid tn cn ct p w',
  ran h w -> Forall op_typed (map fst h) -> view w x = Some t -> is_u32 tid ->
  step w (Call x (CCreateTable tid tn cn ct p)) = (ODone, w') ->
  exists t' k, p = Some k /\ view w' x = Some t' /\ ~ exists_in t tid /\
    let ty := {| tt_version := 1; tt_name := tn; tt_cols := cn; tt_types := ct; tt_key := k |} in
    recorded t' tid (sh_idt (w_sh w)) ty /\
    Permutation (rows_in t' 0) ([VInt tid; VBytes (x_gob_encode (toWire (sh_idt (w_sh w)) ty))] :: rows_in t 0) /\
    only_table 0 t t'.
Proof. exact @create_records. Qed.
Print Assumptions C30_create_records.

(** They stay recorded until the table is dropped. *)
Theorem C30_recorded_stays :
  forall (X : FloatLib) (L : CaseLib) (G : GobLib), FloatLib_ok X -> GobLib_ok G ->
  forall h w x t o out w' t' tid i0 ty,
  ran h w -> Forall op_typed (map fst h) -> op_typed o -> is_u32 tid ->
  view w x = Some t -> recorded t tid i0 ty -> step w o = (out, w') ->
  ~ (o = Call x (CDropTable tid) /\ out = ODone) -> view w' x = Some t' -> recorded t' tid i0 ty.
Proof. exact @recorded_stays. Qed.
Print Assumptions C30_recorded_stays.

(** Dropping a table removes what is recorded of it and nothing else. *)
Theorem C30_drop_exact :
  forall (X : FloatLib) (L : CaseLib) (G : GobLib), FloatLib_ok X -> GobLib_ok G ->
  forall h w x t tid,
  ran h w -> Forall op_typed (map fst h) -> view w x = Some t -> is_u32 tid ->
  let out := fst (step w (Call x (CDropTable tid))) in
  let w' := snd (step w (Call x (CDropTable tid))) in
  (exists_in t tid -> out = ODone /\ exists t', view w' x = Some t' /\ ~ exists_in t' tid /\ only_table 0 t t' /\
     exists b, Permutation (rows_in t 0) ([VInt tid; VBytes b] :: rows_in t' 0)) /\
  (~ exists_in t tid -> out = OPanic /\ view w' x = Some t).
Proof. exact @drop_exact. Qed.
Print Assumptions C30_drop_exact.

(** A table that does not exist cannot be opened. *)
Theorem C30_open_missing :
  forall (X : FloatLib) (L : CaseLib) (G : GobLib), FloatLib_ok X -> GobLib_ok G ->
  forall h w x t tid tn cn ct p,
  ran h w -> Forall op_typed (map fst h) -> view w x = Some t -> is_u32 tid -> ~ exists_in t tid ->
  fst (step w (Call x (COpenTable tid tn cn ct p))) = OPanic.
Proof. exact @open_missing. Qed.
Print Assumptions C30_open_missing.

(** A table that is opened exists and has the attributes asked for. *)
Theorem C30_open_sound :
  forall (X : FloatLib) (L : CaseLib) (G : GobLib), FloatLib_ok X -> GobLib_ok G ->
  forall h w x t tid tn cn ct p w',
  ran h w -> Forall op_typed (map fst h) -> view w x = Some t -> is_u32 tid ->
  step w (Call x (COpenTable tid tn cn ct p)) = (ODone, w') ->
  view w' x = Some t /\ exists_in t tid /\
  exists ty, matches ty tn cn ct p /\ tables_of w' x = tables_of w x ++ [{| tb_tid := tid; tb_tt := ty |}].
Proof. exact @open_sound. Qed.
Print Assumptions C30_open_sound.

(** A table is opened exactly with the attributes recorded, if its names and those
    of its columns are reserved words or ordinary names.  It may have been
    recorded at an earlier state. *)
Theorem C30_open_exact : forall (X : FloatLib) (L : CaseLib) (G : GobLib),
  FloatLib_ok X -> GobLib_ok G -> CaseLib_ok L ->
  forall h w ths ops outs w2 x t tid ty tn cn ct p,
    ran h w2 -> Forall op_typed (map fst h) ->
    reachable w -> run w ops = (outs, w2) -> idreach (sh_idt (w_sh w), ths) -> Forall (proper_id ths) (names_of ty) ->
    view w2 x = Some t -> is_u32 tid -> recorded t tid (sh_idt (w_sh w)) ty ->
    (matches ty tn cn ct p ->
       exists w', step w2 (Call x (COpenTable tid tn cn ct p)) = (ODone, w') /\ view w' x = Some t /\
         tables_of w' x = tables_of w2 x ++ [{| tb_tid := tid; tb_tt := ty |}]) /\
    (~ matches ty tn cn ct p -> fst (step w2 (Call x (COpenTable tid tn cn ct p))) = OPanic).
Proof. exact @open_exact. Qed.
Print Assumptions C30_open_exact.

Example C30_case :
  let w := demo_world (demo_names ++ [Begin 0]) in
  let w2 := demo_world (demo_names ++ [Begin 0; Call 0 demo_create]) in
  let ty := tb_tt demo_table in
  @reachable demo_X demo_L demo_G w /\ @run demo_X demo_L demo_G w [Call 0 demo_create] = ([ODone], w2) /\
  match view w2 0 with Some t => @recorded demo_G t 20 (sh_idt (w_sh w)) ty | None => False end /\
  matches ty demo_tn demo_cols demo_types demo_key /\ rowid_ok demo_cols demo_types demo_key /\
  fst (@step demo_X demo_L demo_G w2 (Call 0 demo_open)) = ODone /\
  fst (@step demo_X demo_L demo_G w2 (Call 0 demo_create)) = OPanic /\
  fst (@step demo_X demo_L demo_G w2 (Call 0 (COpenTable 20 demo_tn [51; 50] demo_types demo_key))) = OPanic.
Proof.
  cbv zeta. split; [apply demo_reachable|]. split; [vm_compute; reflexivity|]. split; [vm_compute; left; reflexivity|].
  split; [repeat split|]. split; [intros [|[|i]] H; simpl in H; try discriminate; destruct i; discriminate|].
  repeat split; vm_compute; reflexivity.
Qed.

(** With a column that is called as a keyword that is not reserved, as PATH, a
    table can be created but not opened. *)
Theorem C30_open_keyword_refuted :
  exists (X : FloatLib) (L : CaseLib) (G : GobLib) h w x t tid ty,
  libs_ok X L G /\ orderly tid h w /\ view w x = Some t /\ recorded t tid (sh_idt (w_sh w)) ty /\
  snd (ID (sh_idt (w_sh w)) (str "path") false) = nth 0 (tt_cols ty) 0 /\
  fst (step w (Call x (COpenTable tid (tt_name ty) (tt_cols ty) (tt_types ty) (tt_key ty)))) = OPanic.
Proof. exact open_keyword. Qed.
Print Assumptions C30_open_keyword_refuted.
