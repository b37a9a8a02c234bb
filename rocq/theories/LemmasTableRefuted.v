(** What tables do not guarantee. *)

From Verif Require Import ModelStore SpecTable LemmasBase LemmasKey LemmasValue LemmasIdent LemmasGob LemmasDemo LemmasDemoTable.

(** The instances of the libraries used below. *)
Definition libs_ok (X : FloatLib) (L : CaseLib) (G : GobLib) : Prop := FloatLib_ok X /\ CaseLib_ok L /\ GobLib_ok G.
Lemma demo_libs : libs_ok demo_X demo_L demo_G.
Proof. split; [exact FloatLib_example_ok|]. split; [exact CaseLib_ascii_ok|exact GobLib_example_ok]. Qed.

Definition view_of (ops : list op) : tree := match view (demo_world ops) 1 with Some t => t | None => [] end.

(** A predicate on the second column, which has a NULL. *)
Definition demo_pred : predicate :=
  {| p_column := 1; p_bool := None; p_string := Some (fun _ => true); p_bytes := None; p_float := None; p_int := None |}.

Lemma null_scan : exists (X : FloatLib) (L : CaseLib) (G : GobLib) h w x t i tb kc p ct,
  libs_ok X L G /\ orderly (tb_tid tb) h w /\ view w x = Some t /\ nth_error (tables_of w x) i = Some tb /\ keyed tb kc /\
  nth_error (tt_types (tb_tt tb)) (Z.to_nat (p_column p)) = Some ct /\ has_method p (ct_type ct) /\ ct_notnull ct = false /\
  fst (step w (Call x (CRows i None None None (Some p)))) = OPanic.
Proof.
  exists demo_X, demo_L, demo_G, (demo_hist (demo_use [])), (demo_world (demo_use [])), 1%nat, (view_of (demo_use [])), 0%nat,
    demo_table, demo_kc, demo_pred, (nth 1 demo_types Int64ColType).
  split; [exact demo_libs|]. split; [apply demo_orderly; vm_compute; reflexivity|].
  do 2 (split; [vm_compute; reflexivity|]). split; [exact demo_keyed|]. split; [vm_compute; reflexivity|].
  split; [discriminate|]. split; vm_compute; reflexivity.
Qed.

(** Drop the table and create it again with the key on the second column. *)
Definition key2 : list Z := keys_of [(1%nat, false)].
Definition demo_recreate : list op :=
  demo_setup ++ [Begin 1; Call 1 (CDropTable 20); Call 1 (CCreateTable 20 demo_tn demo_cols demo_types (Some key2));
                 Call 1 (COpenTable 20 demo_tn demo_cols demo_types key2);
                 Call 1 (CInsert 0 [[VInt 9; VString (str "three")]])].

Lemma unique_after_drop : exists (X : FloatLib) (L : CaseLib) (G : GobLib) h w x t i tb kc a b r1 r2,
  libs_ok X L G /\ ran h w /\ Forall op_typed (map fst h) /\ view w x = Some t /\
  nth_error (tables_of w x) i = Some tb /\ keyed tb kc /\
  nth_error (rows_in t (tb_tid tb)) a = Some r1 /\ nth_error (rows_in t (tb_tid tb)) b = Some r2 /\
  same_key kc r1 r2 /\ a <> b.
Proof.
  exists demo_X, demo_L, demo_G, (demo_hist demo_recreate), (demo_world demo_recreate), 1%nat, (view_of demo_recreate), 0%nat,
    {| tb_tid := 20; tb_tt := {| tt_version := 1; tt_name := demo_tn; tt_cols := demo_cols; tt_types := demo_types; tt_key := key2 |} |},
    [(1%nat, false)], 2%nat, 3%nat, [VInt 3; VString (str "three")], [VInt 9; VString (str "three")].
  split; [exact demo_libs|]. split; [apply demo_ran|].
  split; [rewrite demo_fst; apply typed_all; vm_compute; reflexivity|].
  split; [vm_compute; reflexivity|]. split; [vm_compute; reflexivity|].
  split; [split; [repeat constructor; simpl; lia|reflexivity]|].
  split; [vm_compute; reflexivity|]. split; [vm_compute; reflexivity|]. split; [|discriminate].
  intros c d [[= <- <-]|[]]. left. reflexivity.
Qed.

(** The second of two rows is refused; the first remains. *)
Lemma insert_not_atomic : exists (X : FloatLib) (L : CaseLib) (G : GobLib) h w x t i tb kc rs e w' t',
  libs_ok X L G /\ orderly (tb_tid tb) h w /\ view w x = Some t /\ nth_error (tables_of w x) i = Some tb /\ keyed tb kc /\
  step w (Call x (CInsert i rs)) = (OErr e, w') /\ view w' x = Some t' /\
  length (rows_in t' (tb_tid tb)) <> length (rows_in t (tb_tid tb)).
Proof.
  pose (ins := [[VInt 7; VNull]; [VInt 1; VNull]] : list row).
  exists demo_X, demo_L, demo_G, (demo_hist (demo_use [])), (demo_world (demo_use [])), 1%nat, (view_of (demo_use [])), 0%nat,
    demo_table, demo_kc, ins, ErrDuplicateKey, (demo_world (demo_use [Call 1 (CInsert 0 ins)])), (view_of (demo_use [Call 1 (CInsert 0 ins)])).
  split; [exact demo_libs|]. split; [apply demo_orderly; vm_compute; reflexivity|].
  do 2 (split; [vm_compute; reflexivity|]). split; [exact demo_keyed|].
  do 2 (split; [vm_compute; reflexivity|]). vm_compute. discriminate.
Qed.

(** Moving a row onto a key that exists loses the row. *)
Definition demo_ref : list op := [Call 1 all_rows; Call 1 (CNext 0); Call 1 (CCurrent 0)].
Lemma update_not_atomic : exists (X : FloatLib) (L : CaseLib) (G : GobLib) h w x t j rr tb kc cols vals e w' t' r,
  libs_ok X L G /\ orderly (tb_tid tb) h w /\ view w x = Some t /\ nth_error (refs_of w x) j = Some rr /\
  nth_error (tables_of w x) (rr_tbl rr) = Some tb /\ keyed tb kc /\ In r (rows_in t (tb_tid tb)) /\ denotes kc rr r /\
  step w (Call x (CUpdate j cols vals)) = (OErr e, w') /\ view w' x = Some t' /\ ~ In r (rows_in t' (tb_tid tb)).
Proof.
  pose (u := CUpdate 0 [0] [VInt 2]).
  exists demo_X, demo_L, demo_G, (demo_hist (demo_use demo_ref)), (demo_world (demo_use demo_ref)), 1%nat, (view_of (demo_use demo_ref)), 0%nat,
    {| rr_tbl := 0; rr_key := encodeKeyValue [] (VInt 1) false |},
    demo_table, demo_kc, [0], [VInt 2], ErrDuplicateKey, (demo_world (demo_use (demo_ref ++ [Call 1 u]))),
    (view_of (demo_use (demo_ref ++ [Call 1 u]))), [VInt 1; VString (str "one")].
  split; [exact demo_libs|]. split; [apply demo_orderly; vm_compute; reflexivity|].
  do 3 (split; [vm_compute; reflexivity|]). split; [exact demo_keyed|].
  split; [vm_compute; left; reflexivity|]. do 3 (split; [vm_compute; reflexivity|]).
  vm_compute. intros [H|[H|[]]]; discriminate.
Qed.

(** Updates are not checked against the column types. *)
Lemma update_not_checked : exists (X : FloatLib) (L : CaseLib) (G : GobLib) h w x t tb,
  libs_ok X L G /\ orderly (tb_tid tb) h w /\ view w x = Some t /\ In tb (tables_of w x) /\
  ~ Forall (Forall2 storable (tt_types (tb_tt tb))) (rows_in t (tb_tid tb)).
Proof.
  pose (ops := demo_use (demo_ref ++ [Call 1 (CUpdate 0 [1] [VBool true])])).
  exists demo_X, demo_L, demo_G, (demo_hist ops), (demo_world ops), 1%nat, (view_of ops), demo_table.
  split; [exact demo_libs|]. split; [apply demo_orderly; vm_compute; reflexivity|].
  split; [vm_compute; reflexivity|]. split; [vm_compute; left; reflexivity|].
  assert (rows_in (view_of ops) 20 = [VInt 1; VBool true] :: skipn 1 demo_sorted) as E by (vm_compute; reflexivity).
  change (tb_tid demo_table) with 20. rewrite E. intros F. inversion F as [|r l H1 H2]; subst.
  inversion H1 as [|c v cs vs A1 A2]; subst. inversion A2 as [|c v cs vs B1 B2]; subst.
  destruct B1 as [B1|[B1|(s & [B1|B1] & _)]]; try discriminate. all: try (destruct B1 as [B1 _]; simpl in B1; contradiction).
Qed.

(** Rows of a dropped table are found again. *)
Lemma drop_keeps_rows : exists (X : FloatLib) (L : CaseLib) (G : GobLib) h w x t tid tn cn ct p w' t',
  libs_ok X L G /\ ran h w /\ Forall op_typed (map fst h) /\ view w x = Some t /\ ~ exists_in t tid /\
  step w (Call x (CCreateTable tid tn cn ct p)) = (ODone, w') /\ view w' x = Some t' /\ rows_in t' tid <> [].
Proof.
  pose (ops := demo_setup ++ [Begin 1; Call 1 (CDropTable 20)]).
  exists demo_X, demo_L, demo_G, (demo_hist ops), (demo_world ops), 1%nat, (view_of ops), 20, demo_tn, demo_cols, demo_types,
    (Some demo_key), (demo_world (ops ++ [Call 1 demo_create])), (view_of (ops ++ [Call 1 demo_create])).
  split; [exact demo_libs|]. split; [apply demo_ran|].
  split; [rewrite demo_fst; apply typed_all; vm_compute; reflexivity|].
  split; [vm_compute; reflexivity|]. split.
  { intros (b & H). assert (rows_in (view_of ops) 0 = []) as E by (vm_compute; reflexivity). now rewrite E in H. }
  do 2 (split; [vm_compute; reflexivity|]). vm_compute. discriminate.
Qed.

(** A handle of a table survives dropping the table. *)
Lemma handle_survives : exists (X : FloatLib) (L : CaseLib) (G : GobLib) h w x t i tb r,
  libs_ok X L G /\ orderly (tb_tid tb) h w /\ view w x = Some t /\ nth_error (tables_of w x) i = Some tb /\
  ~ exists_in t (tb_tid tb) /\ fst (step w (Call x (CInsert i [r]))) = ODone.
Proof.
  pose (ops := demo_use [Call 1 (CDropTable 20)]).
  exists demo_X, demo_L, demo_G, (demo_hist ops), (demo_world ops), 1%nat, (view_of ops), 0%nat, demo_table, [VInt 8; VNull].
  split; [exact demo_libs|]. split; [apply demo_orderly; vm_compute; reflexivity|].
  do 2 (split; [vm_compute; reflexivity|]). split; [|vm_compute; reflexivity].
  intros (b & H). assert (rows_in (view_of ops) 0 = []) as E by (vm_compute; reflexivity). now rewrite E in H.
Qed.

(** A table with a column called PATH, a keyword that is not reserved, cannot
    be opened. *)
Definition path_create : txcall := CCreateTable 20 demo_tn [30; 51] demo_types (Some demo_key).
Definition path_open : txcall := COpenTable 20 demo_tn [30; 51] demo_types demo_key.
Lemma open_keyword : exists (X : FloatLib) (L : CaseLib) (G : GobLib) h w x t tid ty,
  libs_ok X L G /\ orderly tid h w /\ view w x = Some t /\ recorded t tid (sh_idt (w_sh w)) ty /\
  snd (ID (sh_idt (w_sh w)) (str "path") false) = nth 0 (tt_cols ty) 0 /\
  fst (step w (Call x (COpenTable tid (tt_name ty) (tt_cols ty) (tt_types ty) (tt_key ty)))) = OPanic.
Proof.
  pose (ops := demo_names ++ [Begin 1; Call 1 path_create]).
  exists demo_X, demo_L, demo_G, (demo_hist ops), (demo_world ops), 1%nat, (view_of ops), 20,
    {| tt_version := 1; tt_name := demo_tn; tt_cols := [30; 51]; tt_types := demo_types; tt_key := demo_key |}.
  split; [exact demo_libs|]. split; [apply demo_orderly; vm_compute; reflexivity|].
  split; [vm_compute; reflexivity|]. split; [vm_compute; left; reflexivity|].
  split; vm_compute; reflexivity.
Qed.
