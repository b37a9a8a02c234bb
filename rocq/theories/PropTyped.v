(** Properties C31 and C32: tables of structs, engine/typedinfo.go and
    engine/typedtable.go. *)

From Verif Require Import ModelTyped SpecTyped SpecBusy LemmasBase LemmasKey LemmasValue LemmasIdent LemmasGob LemmasTyped LemmasTypedTable
  LemmasDemo LemmasDemoTable LemmasSelect LemmasBusy LemmasDemoTyped.

(** C31.  A struct whose texts fit is converted to a row, and reading the row into
    a struct of the type gives the struct; a nil slice can come back as an empty
    one. *)
Theorem C31_round_trip : forall (F : Float32Lib), Float32Lib_ok F ->
  forall ti st g g0, made_for ti st -> of_struct st g -> texts_fit ti g ->
  Forall (fun fd => readable (fd_type fd)) (st_fields st) -> gs_type g0 = st_name st ->
  exists r g', structToRow ti (Some g) = Ok (Some r) /\ RowToStruct ti r g0 = Ok g' /\
    gs_type g' = gs_type g /\ length (gs_fields g') = length (gs_fields g) /\
    forall i ct v v', nth_error (ti_types ti) i = Some ct -> nth_error (gs_fields g) i = Some v ->
      nth_error (gs_fields g') i = Some v' -> same_field ct v v'.
Proof. exact @round_trip. Qed.
Print Assumptions C31_round_trip.

(** The columns have the types of the fields; only pointers and slices can be
    NULL. *)
Theorem C31_column_types : forall ti st, made_for ti st -> Forall2 column_type_for (st_fields st) (ti_types ti).
Proof. exact columns_typed. Qed.
Print Assumptions C31_column_types.

(** The columns of the table admit the row, and it is stored unchanged. *)
Theorem C31_row_admitted : forall (F : Float32Lib) (X : FloatLib), Float32Lib_ok F ->
  forall ti st g, made_for ti st -> of_struct st g -> texts_fit ti g ->
  exists r, structToRow ti (Some g) = Ok (Some r) /\ Forall2 admits (ti_types ti) r /\ ConvertRow (ti_types ti) r = Ok r.
Proof. exact @row_admitted. Qed.
Print Assumptions C31_row_admitted.

(** A text that is too long panics. *)
Theorem C31_long_text_panics : forall (F : Float32Lib), Float32Lib_ok F ->
  forall ti st g, made_for ti st -> of_struct st g -> ~ texts_fit ti g -> structToRow ti (Some g) = Panic.
Proof. exact @text_too_long. Qed.
Print Assumptions C31_long_text_panics.

Example C31_case :
  made_for user_ti user_type /\ Forall (@of_struct demo_F user_type) [user1; user2; user3] /\
  Forall (texts_fit user_ti) [user1; user2; user3] /\ Forall (fun fd => readable (fd_type fd)) (st_fields user_type) /\
  structToRow user_ti (Some user1) = Ok (Some [VInt 1; VString (str "ann"); VNull; VFloat one_half]) /\
  map (fun g => @RowToStruct demo_F user_ti (user_row g) user3) [user1; user2; user3] = map Ok [user1; user2; user3] /\
  @of_struct demo_F user_type (user 1 (Some (str "longer than 10")) None 0) /\
  ~ texts_fit user_ti (user 1 (Some (str "longer than 10")) None 0).
Proof.
  split; [exact user_made|]. split; [constructor; [exact user1_of|constructor; [exact user2_of|constructor; [exact user3_of|constructor]]]|].
  split; [repeat constructor; vm_compute; congruence|]. split; [do 4 (constructor; [cbn; auto|]); constructor|].
  split; [vm_compute; reflexivity|]. split; [vm_compute; reflexivity|]. split; [user_of|].
  intros H. inversion H as [|? ? ? ? _ H1]; subst. inversion H1 as [|? ? ? ? H2 _]; subst. vm_compute in H2. congruence.
Qed.

(** A pointer to an int, int8, int16, int32 or float32 that is not nil is stored
    but cannot be read: reading panics. *)
Theorem C31_narrow_pointer_refuted : forall (F : Float32Lib) ti st g r g0 i fd k v,
  made_for ti st -> of_struct st g -> structToRow ti (Some g) = Ok (Some r) ->
  nth_error (st_fields st) i = Some fd -> ~ readable (fd_type fd) -> nth_error (gs_fields g) i = Some (FPtr k (Some v)) ->
  gs_type g0 = st_name st -> RowToStruct ti r g0 = Panic.
Proof. exact @read_panics. Qed.
Print Assumptions C31_narrow_pointer_refuted.

Example C31_narrow_pointer_case :
  exists ti, made_for ti narrow_type /\ @of_struct demo_F narrow_type narrow /\
  structToRow ti (Some narrow) = Ok (Some [VInt 7]) /\ @RowToStruct demo_F ti [VInt 7] narrow = Panic.
Proof. exact narrow_case. Qed.

(** C32.  Select applies the function to the rows in range in the order of the
    key, until it gives an error. *)
Theorem C32_select : forall (X : FloatLib) (L : CaseLib) (G : GobLib), FloatLib_ok X -> GobLib_ok G ->
  forall (F : Float32Lib) (S : Type) h w x t ti kc st mnS mxS mn mx (fn : S -> row -> prog (S * option error)) s,
  can_open h w x t ti kc -> bound_for ti st mnS mn -> bound_for ti st mxS mx -> (forall s r, quiet (fn s r)) ->
  exists w' lg, exec w x (TypedTableSelect ti mnS mxS fn s) =
      (visit fn (idt_open w x ti) s (filter (in_range kc mn mx) (rows_in t (ti_tid ti))), w', lg) /\
    view w' x = Some t /\ gentle_log x lg /\ opened x lg = closed x lg.
Proof. exact @select_lemma. Qed.
Print Assumptions C32_select.

(** Lookup finds the row with the key of the struct, if there is one, and there
    is at most one; otherwise the error is the end of the file. *)
Theorem C32_lookup : forall (X : FloatLib) (L : CaseLib) (G : GobLib), FloatLib_ok X -> GobLib_ok G ->
  forall (F : Float32Lib) h w x t ti kc st g m,
  can_open h w x t ti kc -> of_struct st g -> structToRow ti (Some g) = Ok (Some m) ->
  exists res w' lg, exec w x (TypedTableLookup ti g) = (res, w', lg) /\
    view w' x = Some t /\ gentle_log x lg /\ opened x lg = closed x lg /\
    ((exists r, In r (rows_in t (ti_tid ti)) /\ same_key kc m r /\
        (forall r', In r' (rows_in t (ti_tid ti)) -> same_key kc m r' -> r' = r) /\
        res = rbind (RowToStruct ti r g) (fun g' => Ok (g', None))) \/
     ((forall r, In r (rows_in t (ti_tid ti)) -> ~ same_key kc m r) /\ res = Ok (g, Some EOF))).
Proof. exact @lookup_lemma. Qed.
Print Assumptions C32_lookup.

(** Delete deletes exactly the rows in range for which the function asks it. *)
Theorem C32_delete : forall (X : FloatLib) (L : CaseLib) (G : GobLib), FloatLib_ok X -> GobLib_ok G ->
  forall (F : Float32Lib) (S : Type) h w x t ti kc st mnS mxS mn mx (fn : S -> row -> prog (S * (bool + error))) s,
  can_open h w x t ti kc -> bound_for ti st mnS mn -> bound_for ti st mxS mx -> (forall s r, quiet (fn s r)) ->
  let found := filter (in_range kc mn mx) (rows_in t (ti_tid ti)) in
  exists w' lg t', exec w x (TypedTableDelete ti mnS mxS fn s) = (snd (visit_delete fn (idt_open w x ti) s found), w', lg) /\
    view w' x = Some t' /\ gentle_log x lg /\ opened x lg = closed x lg /\ only_table (ti_tid ti) t t' /\
    Permutation (rows_in t (ti_tid ti)) (fst (visit_delete fn (idt_open w x ti) s found) ++ rows_in t' (ti_tid ti)).
Proof. exact @delete_lemma. Qed.
Print Assumptions C32_delete.

(** Update changes exactly the rows in range for which the function asks it, one
    after the other, until an update fails. *)
Theorem C32_update : forall (X : FloatLib) (L : CaseLib) (G : GobLib) (F : Float32Lib), FloatLib_ok X -> GobLib_ok G ->
  forall (S : Type) h w x t ti kc st mnS mxS mn mx (fn : S -> row -> prog (S * (option upstruct + error))) s,
  can_open h w x t ti kc -> made_for ti st -> zlen (ti_types ti) < 2 ^ 32 ->
  bound_for ti st mnS mn -> bound_for ti st mxS mx -> (forall s r, quiet (fn s r)) ->
  (forall i s r s' u, fst (qrun i (fn s r)) = Ok (s', inl (Some u)) -> update_typed u) ->
  exists r w' lg t', exec w x (TypedTableUpdate ti mnS mxS fn s) = (r, w', lg) /\
    view w' x = Some t' /\ gentle_log x lg /\ opened x lg = closed x lg /\
    visit_update ti kc fn (idt_open w x ti) s (filter (in_range kc mn mx) (rows_in t (ti_tid ti))) t r t'.
Proof. exact @typed_update. Qed.
Print Assumptions C32_update.

(** Insert stores the structs one after the other, until one has the key of a row
    that is there. *)
Theorem C32_insert : forall (X : FloatLib) (L : CaseLib) (G : GobLib) (F : Float32Lib),
  FloatLib_ok X -> GobLib_ok G -> Float32Lib_ok F ->
  forall h w x t ti kc st (l : list gostruct) rows,
  can_open h w x t ti kc -> made_for ti st -> Forall (of_struct st) l ->
  Forall2 (fun g r => structToRow ti (Some g) = Ok (Some r)) l rows ->
  exists res w' lg t' have', exec w x (TypedTableInsert ti (map Some l)) = (res, w', lg) /\
    view w' x = Some t' /\ gentle_log x lg /\ opened x lg = closed x lg /\ only_table (ti_tid ti) t t' /\
    inserts kc (rows_in t (ti_tid ti)) rows res have' /\ Permutation (rows_in t' (ti_tid ti)) have'.
Proof. exact @typed_insert. Qed.
Print Assumptions C32_insert.

(** Whatever the function itself does with the store, even to this table: the rows
    visited are those in range when the row set was opened, each once and in order,
    and the row set is closed.  The function has no access to the row set, which is
    the next one of the transaction. *)
Theorem C32_busy_select : forall (X : FloatLib) (L : CaseLib) (G : GobLib), FloatLib_ok X -> GobLib_ok G ->
  forall (F : Float32Lib) (S : Type) h w x t ti kc st mnS mxS mn mx (fn : S -> row -> prog (S * option error)) s,
  can_open h w x t ti kc -> bound_for ti st mnS mn -> bound_for ti st mxS mx ->
  (forall s r, spares (length (rowsets_of w x)) (fn s r)) ->
  exists q w1 w2 w' lg, exec w x (TypedTableSelect ti mnS mxS fn s) = (q, w', lg) /\ view w1 x = Some t /\
    visiting x (length (rowsets_of w x)) (applied x fn) w1 s (filter (in_range kc mn mx) (rows_in t (ti_tid ti))) q w2 /\
    step w2 (Call x (CClose (length (rowsets_of w x)))) = (ODone, w') /\ active w' x.
Proof. exact @busy_apply. Qed.
Print Assumptions C32_busy_select.

Theorem C32_busy_delete : forall (X : FloatLib) (L : CaseLib) (G : GobLib), FloatLib_ok X -> GobLib_ok G ->
  forall (F : Float32Lib) (S : Type) h w x t ti kc st mnS mxS mn mx (fn : S -> row -> prog (S * (bool + error))) s,
  can_open h w x t ti kc -> bound_for ti st mnS mn -> bound_for ti st mxS mx ->
  (forall s r, spares (length (rowsets_of w x)) (fn s r)) ->
  exists q w1 w2 w' lg, exec w x (TypedTableDelete ti mnS mxS fn s) = (q, w', lg) /\ view w1 x = Some t /\
    visiting x (length (rowsets_of w x)) (deleting x (length (rowsets_of w x)) fn) w1 s
      (filter (in_range kc mn mx) (rows_in t (ti_tid ti))) q w2 /\
    step w2 (Call x (CClose (length (rowsets_of w x)))) = (ODone, w') /\ active w' x.
Proof. exact @busy_delete. Qed.
Print Assumptions C32_busy_delete.

Theorem C32_busy_update : forall (X : FloatLib) (L : CaseLib) (G : GobLib), FloatLib_ok X -> GobLib_ok G ->
  forall (F : Float32Lib) (S : Type) h w x t ti kc st mnS mxS mn mx (fn : S -> row -> prog (S * (option upstruct + error))) s,
  can_open h w x t ti kc -> bound_for ti st mnS mn -> bound_for ti st mxS mx ->
  (forall s r, spares (length (rowsets_of w x)) (fn s r)) ->
  exists q w1 w2 w' lg, exec w x (TypedTableUpdate ti mnS mxS fn s) = (q, w', lg) /\ view w1 x = Some t /\
    visiting x (length (rowsets_of w x)) (updating x (length (rowsets_of w x)) ti fn) w1 s
      (filter (in_range kc mn mx) (rows_in t (ti_tid ti))) q w2 /\
    step w2 (Call x (CClose (length (rowsets_of w x)))) = (ODone, w') /\ active w' x.
Proof. exact @busy_update. Qed.
Print Assumptions C32_busy_update.

(** Rows that are inserted meanwhile are not visited; a row that is deleted meanwhile
    is, and cannot be deleted again. *)
Example C32_busy_case :
  @can_open demo_X demo_L demo_G user_hist user_world 1 user_tree user_ti user_kc /\
  @bound_for demo_F user_ti user_type None None /\
  (forall s r, spares (length (rowsets_of user_world 1)) (user_grows s r)) /\
  user_after (TypedTableSelect user_ti None None user_grows O) =
    (Ok (2%nat, None), [user_row user1; user_row user2; user_row (user 7 None None 0); user_row (user 8 None None 0)]) /\
  fst (user_after (TypedTableDelete user_ti None None user_clears O)) = Panic.
Proof.
  split; [exact user_open|]. split; [split; [discriminate|reflexivity]|]. split; [exact user_grows_spares|].
  split; vm_compute; reflexivity.
Qed.

(** All of them do calls on the transaction only, and leave an orderly state. *)
Theorem C32_goes_on : forall (X : FloatLib) (L : CaseLib) (G : GobLib) (A : Type) h w x t ti kc (p : prog A) r w' lg,
  can_open h w x t ti kc -> exec w x p = (r, w', lg) -> gentle_log x lg ->
  run w (map fst lg) = (map snd lg, w') /\ orderly (ti_tid ti) (h ++ lg) w'.
Proof. exact @typed_goes_on. Qed.
Print Assumptions C32_goes_on.

(** Two structs are stored; a third is added, one is changed, one deleted. *)
Example C32_case :
  @can_open demo_X demo_L demo_G user_hist user_world 1 user_tree user_ti user_kc /\
  rows_in user_tree 21 = [user_row user1; user_row user2] /\
  @bound_for demo_F user_ti user_type (Some user2) (Some (user_row user2)) /\
  fst (fst (@exec _ demo_X demo_L demo_G user_world 1 (@TypedTableLookup demo_F user_ti (user 2 None None 0)))) = Ok (user2, None) /\
  fst (fst (@exec _ demo_X demo_L demo_G user_world 1 (@TypedTableLookup demo_F user_ti (user 5 None None 0))))
    = Ok (user 5 None None 0, Some EOF) /\
  user_after (TypedTableInsert user_ti [Some user3; Some user1; Some (user 4 None None 0)])
    = (Err ErrDuplicateKey, [user_row user1; user_row user2; user_row user3]) /\
  user_after (TypedTableDelete user_ti (Some user2) None (fun n _ => pret (S n, inl true)) O)
    = (Ok (1%nat, None), [user_row user1]) /\
  user_after (TypedTableUpdate user_ti None (Some user1) (fun n _ => pret (S n, inl (Some [(runes "Name", FPtr KString None)]))) O)
    = (Ok (1%nat, None), [user_row (user 1 None None one_half); user_row user2]).
Proof.
  split; [exact user_open|]. split; [exact user_rows|]. split; [exact user2_bound|].
  repeat split; vm_compute; reflexivity.
Qed.
