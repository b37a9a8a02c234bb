(** Any number of transactions on one store. *)

From Verif Require Import ModelStore SpecStore LemmasBase LemmasTree LemmasStore.

(** A live transaction, by value. *)
Record vtx : Set := {
  v_tree : tree; v_idt : idtable; v_count : Z; v_tables : list table; v_rows : list rowset;
  v_refs : list rowref
}.

Definition absS (s : shared * txstate) (t : tree) : vtx := {|
  v_tree := t; v_idt := sh_idt (fst s); v_count := tx_count (snd s); v_tables := tx_tables (snd s);
  v_rows := tx_rows (snd s); v_refs := tx_refs (snd s)
|}.

Definition v_with (v : vtx) (s : tree * idtable) : vtx := {|
  v_tree := fst s; v_idt := snd s; v_count := v_count v; v_tables := v_tables v; v_rows := v_rows v;
  v_refs := v_refs v
|}.
Definition v_add_table (v : vtx) (t : table) : vtx := {|
  v_tree := v_tree v; v_idt := v_idt v; v_count := v_count v; v_tables := v_tables v ++ [t];
  v_rows := v_rows v; v_refs := v_refs v
|}.
Definition v_add_rows (v : vtx) (r : rowset) : vtx := {|
  v_tree := v_tree v; v_idt := v_idt v; v_count := v_count v + 1; v_tables := v_tables v;
  v_rows := v_rows v ++ [r]; v_refs := v_refs v
|}.
Definition v_set_rows (v : vtx) (n : Z) (i : nat) (r : rowset) : vtx := {|
  v_tree := v_tree v; v_idt := v_idt v; v_count := n; v_tables := v_tables v;
  v_rows := set_nth i r (v_rows v); v_refs := v_refs v
|}.
Definition v_add_ref (v : vtx) (r : rowref) : vtx := {|
  v_tree := v_tree v; v_idt := v_idt v; v_count := v_count v; v_tables := v_tables v;
  v_rows := v_rows v; v_refs := v_refs v ++ [r]
|}.
Definition rs_at (rs : rowset) (n : Z) : rowset :=
  {| rs_tbl := rs_tbl rs; rs_cols := rs_cols rs; rs_items := rs_items rs; rs_next := n |}.

Section VStep.
  Context {X : FloatLib} {L : CaseLib} {G : GobLib}.

  Definition vrun {A} (f : vtx -> A -> outcome * vtx) (m : V A) (v : vtx) : outcome * vtx :=
    let '(r, s) := m (v_tree v, v_idt v) in
    match r with
    | Ok a => f (v_with v s) a
    | Err e => (OErr e, v_with v s)
    | Panic => (OPanic, v_with v s)
    end.

  Definition vstep (v : vtx) (c : txcall) : outcome * vtx :=
    let done := fun v (_ : unit) => (ODone, v) in
    match c with
    | COpenTable tid tn cn ct p => vrun (fun v t => (ODone, v_add_table v t)) (vOpenTable tid tn cn ct p) v
    | CCreateTable tid tn cn ct p => vrun done (vCreateTable tid tn cn ct p) v
    | CDropTable tid => vrun done (vDropTable tid) v
    | CCommit | CRollback => (OPanic, v)
    | CNextStmt => (ODone, v)
    | CInfo i => match nth_error (v_tables v) i with Some t => (OInfo t, v) | None => (ONoObject, v) end
    | CRows i cols mn mx p =>
        match nth_error (v_tables v) i with
        | Some t =>
            vrun (fun v items => (ODone, v_add_rows v {| rs_tbl := i; rs_cols := cols; rs_items := items; rs_next := 0 |}))
              (vRows t mn mx p) v
        | None => (ONoObject, v)
        end
    | CInsert i rs =>
        match nth_error (v_tables v) i with Some t => vrun done (vInsertRows t rs) v | None => (ONoObject, v) end
    | CNext i =>
        match nth_error (v_rows v) i with
        | Some rs =>
            if rs_next rs <? 0 then (OPanic, v)
            else if rs_next rs =? zlen (rs_items rs) then (OErr EOF, v)
            else
              match znth (rs_items rs) (rs_next rs) with
              | None => (OPanic, v)
              | Some it =>
                  (match rs_cols rs with
                   | Some cols => match projectRow cols (it_row it) with Some r => ORow r | None => OPanic end
                   | None => ORow (it_row it)
                   end, v_set_rows v (v_count v) i (rs_at rs (rs_next rs + 1)))
              end
        | None => (ONoObject, v)
        end
    | CCurrent i =>
        match nth_error (v_rows v) i with
        | Some rs =>
            if rs_next rs <=? 0 then (OPanic, v)
            else
              match znth (rs_items rs) (rs_next rs - 1) with
              | None => (OPanic, v)
              | Some it => (ODone, v_add_ref v {| rr_tbl := rs_tbl rs; rr_key := it_key it |})
              end
        | None => (ONoObject, v)
        end
    | CClose i =>
        match nth_error (v_rows v) i with
        | Some rs =>
            if rs_next rs <? 0 then (OPanic, v)
            else (ODone, v_set_rows v (v_count v - 1) i (rs_at rs (-1)))
        | None => (ONoObject, v)
        end
    | CUpdate i cols vals =>
        match nth_error (v_refs v) i with
        | Some rr =>
            match nth_error (v_tables v) (rr_tbl rr) with
            | Some t => vrun done (vUpdate t (rr_key rr) cols vals) v
            | None => (ONoObject, v)
            end
        | None => (ONoObject, v)
        end
    | CDelete i =>
        match nth_error (v_refs v) i with
        | Some rr =>
            match nth_error (v_tables v) (rr_tbl rr) with
            | Some t => vrun done (vDelete t (rr_key rr)) v
            | None => (ONoObject, v)
            end
        | None => (ONoObject, v)
        end
    end.

  (** What a call does not change in the shared state. *)
  Definition sframe (sh sh' : shared) : Prop :=
    sh_tree sh' = sh_tree sh /\ sh_locked sh' = sh_locked sh /\
    nth_error (sh_heap sh') (sh_tree sh) = nth_error (sh_heap sh) (sh_tree sh).

  Lemma sframe_refl sh : sframe sh sh.
  Proof. unfold sframe. tauto. Qed.

  Lemma run_impl (m : M unit) v s t :
    impl false false m v -> sees s t ->
    exists out s' t', runM (fun _ => ODone) m s = (out, s') /\
      vrun (fun v (_ : unit) => (ODone, v)) v (absS s t) = (out, absS s' t') /\
      sees s' t' /\ sframe (fst s) (fst s').
  Proof.
    intros H Hs. destruct (H s t Hs) as (r & s' & t' & i' & E1 & E2 & Hs' & Hi & Fr & _); [discriminate|].
    destruct Fr as (F1 & F2 & F3 & F4 & F5 & F6 & F7).
    exists (outcome_of (fun _ => ODone) r), s', t'.
    split; [unfold runM; now rewrite E1|].
    split. { unfold vrun. simpl. rewrite E2. unfold absS, v_with. simpl.
             rewrite Hi, F4, F5, F6, F7. destruct r; reflexivity. }
    split; [exact Hs'|]. unfold sframe. auto.
  Qed.

  Lemma sees_tx_change s t tx :
    sees s t -> tx_live tx = tx_live (snd s) -> tx_tree tx = tx_tree (snd s) -> sees (fst s, tx) t.
  Proof. intros (A & B & C) E1 E2. split; [simpl; congruence|]. split; [simpl; rewrite E2; exact B|exact C]. Qed.

  Definition rowsItems (tbl : table) (mn mx : option row) (p : option predicate) : M (list item) :=
       let rel := toRelationId (tb_tid tbl) in
       let key := tt_key (tb_tt tbl) in
       let! maxItem :=
         match mx with
         | None => ret None
         | Some _ => let! it := lift (rowToItem rel key mx) in ret (Some it)
         end in
       let! predFn :=
         match p with
         | None => ret None
         | Some p =>
             let! ct := lift (znth (tt_types (tb_tt tbl)) (p_column p)) in
             let! f := lift (predicateFunction p ct) in
             ret (Some (p_column p, f))
         end in
       let! minItem := lift (rowToItem rel key mn) in
       let! t := readTree in
       lift (scanItems rel maxItem predFn (t_ascend_ge t minItem)).

  Lemma impl_Rows_items tbl mn mx p : impl false false (rowsItems tbl mn mx p) (vRows tbl mn mx p).
  Proof.
    unfold vRows, rowsItems. cbv zeta.
    apply (impl_bind false false false).
    { destruct mx; [|apply impl_ret]. apply (impl_bind false false false); [apply impl_lift|].
      intros; apply impl_ret. }
    intros maxItem. apply (impl_bind false false false).
    { destruct p; [|apply impl_ret]. apply (impl_bind false false false); [apply impl_lift|].
      intros; apply (impl_bind false false false); [apply impl_lift|]. intros; apply impl_ret. }
    intros predFn. apply (impl_bind false false false); [apply impl_lift|].
    intros minItem. apply (impl_bind false false false); [apply impl_read|].
    intros t. apply impl_lift.
  Qed.

  Lemma bind_assoc {A B C} (m : M A) (f : A -> M B) (g : B -> M C) s :
    bind (bind m f) g s = bind m (fun a => bind (f a) g) s.
  Proof. unfold bind. destruct (m s) as [[a|e|] s']; reflexivity. Qed.

  Lemma bind_ext {A B} (m : M A) (f g : A -> M B) s :
    (forall a s', f a s' = g a s') -> bind m f s = bind m g s.
  Proof. intros H. unfold bind. destruct (m s) as [[a|e|] s']; auto. Qed.

  Definition openRows i cols (items : list item) : M unit :=
    let! tx := getTx in
    putTx (tx_with_rows (tx_with_count tx (tx_count tx + 1))
             (tx_rows tx ++ [{| rs_tbl := i; rs_cols := cols; rs_items := items; rs_next := 0 |}])).

  Lemma Rows_eq i tbl cols mn mx p s :
    Rows i tbl cols mn mx p s =
    bind (rowsItems tbl mn mx p) (openRows i cols) s.
  Proof.
    unfold Rows, rowsItems. cbv zeta. rewrite bind_assoc. apply bind_ext. intros mi s1.
    rewrite bind_assoc. apply bind_ext. intros pf s2.
    rewrite bind_assoc. apply bind_ext. intros mn' s3.
    rewrite bind_assoc. apply bind_ext. intros t s4. reflexivity.
  Qed.

  Lemma call_live s t c :
    sees s t -> c <> CCommit -> c <> CRollback ->
    exists out s' t', callStep s c = (out, s') /\ vstep (absS s t) c = (out, absS s' t') /\
      sees s' t' /\ sframe (fst s) (fst s').
  Proof.
    intros Hs N1 N2.
    assert (forall out : outcome, exists out' s' t', (out, s) = (out', s') /\ (out, absS s t) = (out', absS s' t') /\
              sees s' t' /\ sframe (fst s) (fst s')) as Hsame.
    { intros out. exists out, s, t. repeat split; try reflexivity; try exact Hs; apply Hs. }
    destruct c as [tid tn cn ct p|tid tn cn ct p|tid| | | |i|i cols mn mx p|i rs|i|i|i|i cols vals|i];
      try congruence; simpl.
    - (* OpenTable *)
      destruct (impl_getTableType false tid s t Hs) as (r & s' & t' & i' & E1 & E2 & Hs' & Hi & Fr & _); [discriminate|].
      destruct Fr as (F1 & F2 & F3 & F4 & F5 & F6 & F7).
      unfold runM, OpenTable, bind. rewrite E1. unfold vrun, vOpenTable, vbind. simpl. rewrite E2.
      assert (v_with (absS s t) (t', i') = absS s' t') as EA.
      { unfold v_with, absS. simpl. now rewrite Hi, F4, F5, F6, F7. }
      assert (sframe (fst s) (fst s')) as SF by (unfold sframe; auto).
      assert (forall o : outcome, exists out s'0 t'0, (o, s') = (out, s'0) /\ (o, v_with (absS s t) (t', i')) = (out, absS s'0 t'0) /\
                sees s'0 t'0 /\ sframe (fst s) (fst s'0)) as Hend.
      { intros o. exists o, s', t'. rewrite EA. auto. }
      destruct r as [[ty|]|e|]; simpl; try apply Hend.
      destruct (negb (tablename_eqb tn (tt_name ty))); simpl; [apply Hend|].
      destruct (negb (list_eqb Z.eqb cn (tt_cols ty))); simpl; [apply Hend|].
      destruct (negb (list_eqb coltype_eqb ct (tt_types ty))); simpl; [apply Hend|].
      destruct (negb (list_eqb Z.eqb p (tt_key ty))); simpl; [apply Hend|].
      eexists _, _, t'. split; [reflexivity|]. split; [|split].
      + unfold v_add_table, absS. simpl. now rewrite Hi, F4, F5, F6, F7.
      + apply (sees_tx_change s'); auto.
      + exact SF.
    - apply run_impl; [apply impl_CreateTable|exact Hs].
    - apply run_impl; [apply impl_DropTable|exact Hs].
    - apply Hsame.
    - destruct (nth_error (tx_tables (snd s)) i); apply Hsame.
    - (* Rows *)
      destruct (nth_error (tx_tables (snd s)) i) as [tbl|]; [|apply Hsame].
      unfold runM. rewrite Rows_eq. unfold bind at 1.
      destruct (impl_Rows_items tbl mn mx p s t Hs) as (r & s' & t' & i' & E1 & E2 & Hs' & Hi & Fr & _); [discriminate|].
      destruct Fr as (F1 & F2 & F3 & F4 & F5 & F6 & F7).
      rewrite E1. unfold vrun. simpl. rewrite E2.
      assert (sframe (fst s) (fst s')) as SF by (unfold sframe; auto).
      destruct r as [items|e|]; simpl.
      + eexists _, _, t'. split; [reflexivity|]. split; [|split].
        * unfold v_add_rows, absS. simpl. now rewrite Hi, F4, F5, F6, F7.
        * apply (sees_tx_change s'); auto.
        * exact SF.
      + eexists _, s', t'. split; [reflexivity|]. split; [|auto].
        unfold v_with, absS. simpl. now rewrite Hi, F4, F5, F6, F7.
      + eexists _, s', t'. split; [reflexivity|]. split; [|auto].
        unfold v_with, absS. simpl. now rewrite Hi, F4, F5, F6, F7.
    - destruct (nth_error (tx_tables (snd s)) i) as [tbl|]; [|apply Hsame].
      apply run_impl; [apply impl_Insert|exact Hs].
    - (* Next *)
      destruct (nth_error (tx_rows (snd s)) i) as [rs|]; [|apply Hsame].
      unfold runM, Next. destruct (rs_next rs <? 0); [apply Hsame|].
      destruct (rs_next rs =? zlen (rs_items rs)); [apply Hsame|].
      unfold bind, lift. destruct (znth (rs_items rs) (rs_next rs)) as [it|]; [|apply Hsame].
      simpl. destruct (rs_cols rs) as [cols|] eqn:Ec; [destruct (projectRow cols (it_row it))|];
        (eexists _, _, t; split; [reflexivity|]; split; [unfold rs_at; rewrite Ec; reflexivity|]; split;
           [apply (sees_tx_change s); auto|apply sframe_refl]).
    - destruct (nth_error (tx_rows (snd s)) i) as [rs|]; [|apply Hsame].
      unfold runM, Current. destruct (rs_next rs <=? 0); [apply Hsame|].
      unfold bind, lift. destruct (znth (rs_items rs) (rs_next rs - 1)) as [it|]; [|apply Hsame].
      simpl. eexists _, _, t; split; [reflexivity|]; split; [reflexivity|]; split;
           [apply (sees_tx_change s); auto|apply sframe_refl].
    - destruct (nth_error (tx_rows (snd s)) i) as [rs|]; [|apply Hsame].
      unfold runM, Close. destruct (rs_next rs <? 0); [apply Hsame|].
      unfold bind. simpl. eexists _, _, t; split; [reflexivity|]; split; [reflexivity|]; split;
           [apply (sees_tx_change s); auto|apply sframe_refl].
    - destruct (nth_error (tx_refs (snd s)) i) as [rr|]; [|apply Hsame].
      destruct (nth_error (tx_tables (snd s)) (rr_tbl rr)) as [tbl|]; [|apply Hsame].
      apply run_impl; [apply impl_Update|exact Hs].
    - destruct (nth_error (tx_refs (snd s)) i) as [rr|]; [|apply Hsame].
      destruct (nth_error (tx_tables (snd s)) (rr_tbl rr)) as [tbl|]; [|apply Hsame].
      apply run_impl; [apply impl_Delete|exact Hs].
  Qed.
End VStep.

(** Names and transactions. *)
Lemma find_set l x y tx :
  find_tx (set_tx l x tx) y =
  if (x =? y)%nat then match find_tx l x with Some _ => Some tx | None => None end else find_tx l y.
Proof.
  induction l as [|[z t] l IH]; simpl.
  - destruct (x =? y)%nat; reflexivity.
  - destruct (z =? x)%nat eqn:E; simpl.
    + apply Nat.eqb_eq in E. subst z. destruct (x =? y)%nat; reflexivity.
    + rewrite IH. destruct (z =? y)%nat eqn:F; [|reflexivity].
      apply Nat.eqb_eq in F. subst z.
      rewrite Nat.eqb_sym in E. now rewrite E.
Qed.

Lemma set_same l x tx : find_tx l x = Some tx -> set_tx l x tx = l.
Proof.
  induction l as [|[z t] l IH]; simpl; [discriminate|].
  destruct (z =? x)%nat; [now intros [= ->]|]. intros H. now rewrite (IH H).
Qed.

Lemma find_app l x y tx :
  find_tx (l ++ [(x, tx)]) y =
  match find_tx l y with Some t => Some t | None => if (x =? y)%nat then Some tx else None end.
Proof.
  induction l as [|[z t] l IH]; simpl; [reflexivity|]. destruct (z =? y)%nat; [reflexivity|exact IH].
Qed.

(** Row sets of a transaction. *)
Definition open_rs (rs : rowset) : bool := 0 <=? rs_next rs.
Definition rs_ok (rs : rowset) : Prop := -1 <= rs_next rs <= zlen (rs_items rs).

Definition vok (v : vtx) : Prop :=
  sorted (v_tree v) /\ v_count v = zlen (filter open_rs (v_rows v)) /\ Forall rs_ok (v_rows v) /\
  Forall (fun rs => (rs_tbl rs < length (v_tables v))%nat) (v_rows v) /\
  Forall (fun rr => (rr_tbl rr < length (v_tables v))%nat) (v_refs v).

Definition dead_ok (tx : txstate) : Prop :=
  tx_live tx = false /\ tx_tree tx = None /\ Forall (fun rs => rs_next rs = -1) (tx_rows tx).

Definition kills (tx : txstate) : txstate :=
  {| tx_live := false; tx_tree := None; tx_count := tx_count tx; tx_tables := tx_tables tx;
     tx_rows := tx_rows tx; tx_refs := tx_refs tx |}.
Definition unlock (sh : shared) (n : nat) : shared :=
  {| sh_heap := sh_heap sh; sh_tree := n; sh_locked := false; sh_idt := sh_idt sh |}.

Record wok (w : world) : Prop := {
  wk_tree : exists c, nth_error (sh_heap (w_sh w)) (sh_tree (w_sh w)) = Some c /\ sorted c;
  wk_dead : forall x tx, find_tx (w_txs w) x = Some tx -> tx_live tx = false -> dead_ok tx;
  wk_free : sh_locked (w_sh w) = false -> forall x tx, find_tx (w_txs w) x = Some tx -> tx_live tx = false;
  wk_held : sh_locked (w_sh w) = true -> exists x tx,
     find_tx (w_txs w) x = Some tx /\ tx_live tx = true /\
     forall y ty, find_tx (w_txs w) y = Some ty -> tx_live ty = true -> y = x;
  wk_live : forall x tx, find_tx (w_txs w) x = Some tx -> tx_live tx = true ->
     exists t, sees (w_sh w, tx) t /\ vok (absS (w_sh w, tx) t)
}.

Lemma wok_new t : wok (newStore t).
Proof.
  constructor; simpl; try discriminate.
  exists []. split; [reflexivity|apply sorted_nil].
Qed.

Definition dead_outcome (tx : txstate) (c : txcall) (out : outcome) : Prop :=
  match c with
  | CCommit | CRollback => out = OErr ErrTxCompleted
  | CNextStmt => out = ODone
  | CInfo i =>
      match nth_error (tx_tables tx) i with Some t => out = OInfo t | None => out = ONoObject end
  | _ => out = OPanic \/ out = ONoObject
  end.

Section WStep.
  Context {X : FloatLib} {L : CaseLib} {G : GobLib}.

  Lemma getTableType_dead tid s :
    tx_tree (snd s) = None -> getTableType tid s = (Panic, s).
  Proof.
    intros H. unfold getTableType, bind, lift. simpl.
    unfold readTree, bind, getSh, getTx. simpl. now rewrite H.
  Qed.

  Lemma forWrite_dead s : tx_live (snd s) = false -> forWrite s = (Panic, s).
  Proof. intros H. unfold forWrite, bind, getSh, getTx. now rewrite H. Qed.

  Lemma call_dead sh tx c :
    dead_ok tx -> exists out, callStep (sh, tx) c = (out, (sh, tx)) /\ dead_outcome tx c out.
  Proof.
    intros (Hl & Ht & Hr).
    assert (forall i rs, nth_error (tx_rows tx) i = Some rs -> rs_next rs = -1) as Hrs.
    { intros i rs H. apply nth_error_In in H. exact (proj1 (Forall_forall _ _) Hr rs H). }
    destruct c as [tid tn cn ct p|tid tn cn ct p|tid| | | |i|i cols mn mx p|i rs|i|i|i|i cols vals|i]; simpl.
    - exists OPanic. split; [|now left]. unfold runM, OpenTable, bind at 1.
      rewrite getTableType_dead by exact Ht. reflexivity.
    - exists OPanic. split; [|now left]. unfold runM, CreateTable.
      destruct (tid <? EngineTableId); [reflexivity|]. unfold bind at 1.
      rewrite getTableType_dead by exact Ht. reflexivity.
    - exists OPanic. split; [|now left]. unfold runM, DropTable, bind at 1.
      rewrite getTableType_dead by exact Ht. reflexivity.
    - eexists. split; [|reflexivity]. unfold runM, Commit, bind, getTx. simpl. now rewrite Hl.
    - eexists. split; [|reflexivity]. unfold runM, Rollback, bind, getTx. simpl. now rewrite Hl.
    - eexists. split; reflexivity.
    - destruct (nth_error (tx_tables tx) i); eexists; split; reflexivity.
    - destruct (nth_error (tx_tables tx) i) as [tbl|]; [|eexists; split; [reflexivity|now right]].
      exists OPanic. split; [|now left]. unfold runM. rewrite Rows_eq. unfold bind at 1.
      assert (rowsItems tbl mn mx p (sh, tx) = (Panic, (sh, tx))) as ->; [|reflexivity].
      unfold rowsItems. cbv zeta. unfold bind at 1.
      assert (forall (f : option item -> M (list item)), (forall o, f o (sh, tx) = (Panic, (sh, tx))) ->
         bind (match mx with
               | Some _ => let! it := lift (rowToItem (toRelationId (tb_tid tbl)) (tt_key (tb_tt tbl)) mx) in ret (Some it)
               | None => ret None
               end) f (sh, tx) = (Panic, (sh, tx))) as H1.
      { intros f Hf. destruct mx as [r|]; unfold bind, lift, ret; [|apply Hf].
        destruct (rowToItem _ _ _); [apply Hf|reflexivity]. }
      apply H1. intros o. clear H1.
      assert (forall (f : option (Z * (value -> option bool)) -> M (list item)), (forall o, f o (sh, tx) = (Panic, (sh, tx))) ->
         bind (match p with
               | Some p => let! ct := lift (znth (tt_types (tb_tt tbl)) (p_column p)) in
                           let! f := lift (predicateFunction p ct) in ret (Some (p_column p, f))
               | None => ret None
               end) f (sh, tx) = (Panic, (sh, tx))) as H1.
      { intros f Hf. destruct p as [q|]; unfold bind, lift, ret; [|apply Hf].
        destruct (znth _ _); [|reflexivity]. destruct (predicateFunction _ _); [apply Hf|reflexivity]. }
      apply H1. intros o'. clear H1.
      unfold bind at 1, lift at 1. destruct (rowToItem _ _ mn); [|reflexivity].
      unfold ret, bind, readTree, bind, getSh, getTx. simpl. now rewrite Ht.
    - destruct (nth_error (tx_tables tx) i) as [tbl|]; [|eexists; split; [reflexivity|now right]].
      exists OPanic. split; [|now left]. unfold runM, Insert, bind at 1.
      rewrite forWrite_dead by exact Hl. reflexivity.
    - destruct (nth_error (tx_rows tx) i) as [rs|] eqn:E; [|eexists; split; [reflexivity|now right]].
      exists OPanic. split; [|now left]. unfold runM, Next. now rewrite (Hrs _ _ E).
    - destruct (nth_error (tx_rows tx) i) as [rs|] eqn:E; [|eexists; split; [reflexivity|now right]].
      exists OPanic. split; [|now left]. unfold runM, Current. now rewrite (Hrs _ _ E).
    - destruct (nth_error (tx_rows tx) i) as [rs|] eqn:E; [|eexists; split; [reflexivity|now right]].
      exists OPanic. split; [|now left]. unfold runM, Close. now rewrite (Hrs _ _ E).
    - destruct (nth_error (tx_refs tx) i) as [rr|]; [|eexists; split; [reflexivity|now right]].
      destruct (nth_error (tx_tables tx) (rr_tbl rr)) as [tbl|]; [|eexists; split; [reflexivity|now right]].
      exists OPanic. split; [|now left]. unfold runM, Update.
      destruct (negb _); [reflexivity|].
      unfold bind at 1, readTree, bind, getSh, getTx. simpl. now rewrite Ht.
    - destruct (nth_error (tx_refs tx) i) as [rr|]; [|eexists; split; [reflexivity|now right]].
      destruct (nth_error (tx_tables tx) (rr_tbl rr)) as [tbl|]; [|eexists; split; [reflexivity|now right]].
      exists OPanic. split; [|now left]. unfold runM, Delete, bind at 1.
      rewrite forWrite_dead by exact Hl. reflexivity.
  Qed.

  (** The cases of a step. *)
  Inductive wstep (w : world) : op -> outcome -> world -> Prop :=
    | WBegin x :
        unused w x -> sh_locked (w_sh w) = false ->
        wstep w (Begin x) ODone
          {| w_sh := {| sh_heap := sh_heap (w_sh w); sh_tree := sh_tree (w_sh w); sh_locked := true;
                        sh_idt := sh_idt (w_sh w) |};
             w_txs := w_txs w ++ [(x, newTx (w_sh w))] |}
    | WBlocked x : unused w x -> sh_locked (w_sh w) = true -> wstep w (Begin x) OBlocked w
    | WUsed x tx : find_tx (w_txs w) x = Some tx -> wstep w (Begin x) ONoObject w
    | WNone x c : unused w x -> wstep w (Call x c) ONoObject w
    | WDead x c tx out :
        find_tx (w_txs w) x = Some tx -> dead_ok tx -> dead_outcome tx c out ->
        wstep w (Call x c) out w
    | WLive x c tx t out sh' tx' t' :
        find_tx (w_txs w) x = Some tx -> sees (w_sh w, tx) t -> vok (absS (w_sh w, tx) t) ->
        c <> CCommit -> c <> CRollback ->
        vstep (absS (w_sh w, tx) t) c = (out, absS (sh', tx') t') ->
        sees (sh', tx') t' -> sframe (w_sh w) sh' ->
        wstep w (Call x c) out {| w_sh := sh'; w_txs := set_tx (w_txs w) x tx' |}
    | WBusy x c tx t :
        find_tx (w_txs w) x = Some tx -> sees (w_sh w, tx) t -> vok (absS (w_sh w, tx) t) ->
        c = CCommit \/ c = CRollback -> tx_count tx <> 0 ->
        wstep w (Call x c) OPanic w
    | WComplete x c tx t h n :
        find_tx (w_txs w) x = Some tx -> sees (w_sh w, tx) t -> vok (absS (w_sh w, tx) t) ->
        tx_count tx = 0 -> tx_tree tx = Some h ->
        (c = CCommit /\ n = h \/ c = CRollback /\ n = sh_tree (w_sh w)) ->
        wstep w (Call x c) ODone
          {| w_sh := unlock (w_sh w) n; w_txs := set_tx (w_txs w) x (kills tx) |}
    | WIntern s q :
        wstep w (Intern s q) ODone
          {| w_sh := sh_with_idt (w_sh w) (fst (ID (sh_idt (w_sh w)) s q)); w_txs := w_txs w |}.

  Lemma world_eta w : {| w_sh := w_sh w; w_txs := w_txs w |} = w.
  Proof. destruct w; reflexivity. Qed.

  Lemma step_cases w o out w' : wok w -> step w o = (out, w') -> wstep w o out w'.
  Proof.
    intros K H. destruct o as [x|x c|s q]; simpl in H.
    - destruct (find_tx (w_txs w) x) as [tx|] eqn:E.
      + injection H as <- <-. eapply WUsed; exact E.
      + destruct (sh_locked (w_sh w)) eqn:El; injection H as <- <-.
        * now apply WBlocked.
        * now apply WBegin.
    - destruct (find_tx (w_txs w) x) as [tx|] eqn:E.
      2:{ injection H as <- <-. now apply WNone. }
      destruct (tx_live tx) eqn:El.
      + destruct (wk_live w K x tx E El) as (t & Hs & Hv).
        pose proof Hs as (_ & (h & Hh & Ht) & _). simpl in Hh, Ht.
        assert ((c = CCommit \/ c = CRollback) \/ (c <> CCommit /\ c <> CRollback)) as [Hc|[N1 N2]].
        { destruct c; auto; right; split; discriminate. }
        * destruct (Z.eq_dec (tx_count tx) 0) as [E0|E0].
          -- assert (forall n, (c = CCommit /\ n = h \/ c = CRollback /\ n = sh_tree (w_sh w)) ->
               callStep (w_sh w, tx) c = (ODone, (unlock (w_sh w) n, kills tx))) as Hcall.
             { intros n [[-> ->]|[-> ->]]; simpl; unfold runM, Commit, Rollback, bind, getTx; simpl;
                 rewrite El, E0; simpl; [rewrite Hh|]; reflexivity. }
             destruct Hc as [-> | ->].
             ++ rewrite (Hcall h) in H by auto. injection H as <- <-. eapply WComplete; eauto.
             ++ rewrite (Hcall (sh_tree (w_sh w))) in H by auto. injection H as <- <-. eapply WComplete; eauto.
          -- assert (callStep (w_sh w, tx) c = (OPanic, (w_sh w, tx))) as Hcall.
             { apply Z.eqb_neq in E0.
               destruct Hc as [-> | ->]; simpl; unfold runM, Commit, Rollback, bind, getTx; simpl;
                 rewrite El, E0; reflexivity. }
             rewrite Hcall in H. injection H as <- <-. rewrite (set_same _ _ _ E), world_eta.
             eapply WBusy; eauto.
        * destruct (call_live (w_sh w, tx) t c Hs N1 N2) as (out' & [sh' tx'] & t' & E1 & E2 & Hs' & SF).
          rewrite E1 in H. injection H as <- <-. eapply WLive; eauto.
      + pose proof (wk_dead w K x tx E El) as D.
        destruct (call_dead (w_sh w) tx c D) as (out' & E1 & Ho).
        rewrite E1 in H. injection H as <- <-. rewrite (set_same _ _ _ E), world_eta.
        eapply WDead; eauto.
    - injection H as <- <-. apply WIntern.
  Qed.
End WStep.

(** An invariant of the contents is kept by a computation. *)
Definition keeps {A} (P : tree -> Prop) (m : V A) : Prop :=
  forall t i r t' i', P t -> m (t, i) = (r, (t', i')) -> P t'.

Lemma keeps_bind {A B} P (m : V A) (f : A -> V B) :
  keeps P m -> (forall a, keeps P (f a)) -> keeps P (vbind m f).
Proof.
  intros Hm Hf t i r t' i' Ht E. unfold vbind in E.
  destruct (m (t, i)) as [[a|e|] [t1 i1]] eqn:Em.
  - eapply Hf; [eapply Hm; eassumption|exact E].
  - injection E as _ <- _. eapply Hm; eassumption.
  - injection E as _ <- _. eapply Hm; eassumption.
Qed.
Lemma keeps_ret {A} P (a : A) : keeps P (vret a).
Proof. intros t i r t' i' Ht [= _ <- _]. exact Ht. Qed.
Lemma keeps_fail {A} P e : keeps P (@vfail A e).
Proof. intros t i r t' i' Ht [= _ <- _]. exact Ht. Qed.
Lemma keeps_panic {A} P : keeps P (@vpanic A).
Proof. intros t i r t' i' Ht [= _ <- _]. exact Ht. Qed.
Lemma keeps_lift {A} P (o : option A) : keeps P (vlift o).
Proof. destruct o; [apply keeps_ret|apply keeps_panic]. Qed.
Lemma keeps_liftRes {A} P (r : res A) : keeps P (vliftRes r).
Proof. intros t i r' t' i' Ht [= _ <- _]. exact Ht. Qed.
Lemma keeps_read_bind {B} (P : tree -> Prop) (f : tree -> V B) :
  (forall t0, P t0 -> keeps (fun t => P t /\ t = t0) (f t0) \/ keeps P (f t0)) -> keeps P (vbind vread f).
Proof.
  intros H t i r t' i' Ht E. unfold vbind, vread in E. simpl in E.
  destruct (H t Ht) as [K|K]; [eapply K in E; [exact (proj1 E)|auto]|eapply K in E; eauto].
Qed.
Lemma keeps_getI_bind {B} P (f : idtable -> V B) : (forall i, keeps P (f i)) -> keeps P (vbind vgetI f).
Proof. intros H t i r t' i' Ht E. unfold vbind, vgetI in E. simpl in E. eapply H; eassumption. Qed.
Lemma keeps_putI P i0 : keeps P (vputI i0).
Proof. intros t i r t' i' Ht [= _ <- _]. exact Ht. Qed.
Lemma keeps_write (P : tree -> Prop) t0 : P t0 -> keeps P (vwrite t0).
Proof. intros H t i r t' i' Ht [= _ <- _]. exact H. Qed.

Section Keeps.
  Context {X : FloatLib} {L : CaseLib} {G : GobLib}.

  Lemma keeps_getTableType P tid : keeps P (vGetTableType tid).
  Proof.
    unfold vGetTableType. apply keeps_bind; [apply keeps_lift|]. intros it.
    apply keeps_read_bind. intros t0 _. right.
    destruct (t_get t0 it) as [x|]; [|apply keeps_ret].
    destruct (it_row x) as [|v1 [|v2 [|v3 r]]]; try apply keeps_panic;
      destruct v2; try apply keeps_panic.
    destruct (x_gob_decode s) as [wt|]; [|apply keeps_panic].
    apply keeps_getI_bind. intros i. destruct (fromWire i wt) as [[i' ty]|]; [|apply keeps_panic].
    apply keeps_bind; [apply keeps_putI|]. intros; apply keeps_ret.
  Qed.

  Lemma keeps_Rows P tbl mn mx p : keeps P (vRows tbl mn mx p).
  Proof.
    unfold vRows. apply keeps_bind.
    { destruct mx; [|apply keeps_ret]. apply keeps_bind; [apply keeps_lift|intros; apply keeps_ret]. }
    intros. apply keeps_bind.
    { destruct p; [|apply keeps_ret]. apply keeps_bind; [apply keeps_lift|]. intros.
      apply keeps_bind; [apply keeps_lift|intros; apply keeps_ret]. }
    intros. apply keeps_bind; [apply keeps_lift|]. intros.
    apply keeps_read_bind. intros t0 _. right. apply keeps_lift.
  Qed.

  Lemma keeps_OpenTable P tid tn cn ct p : keeps P (vOpenTable tid tn cn ct p).
  Proof.
    unfold vOpenTable. apply keeps_bind; [apply keeps_getTableType|]. intros [ty|]; [|apply keeps_panic].
    repeat (destruct (negb _); [apply keeps_panic|]). apply keeps_ret.
  Qed.

  Lemma keeps_CreateTable (P : tree -> Prop) tid tn cn ct p :
    (forall t i it, P t ->
       match p with
       | Some p => rowToItem tableTypesRelation tableTypesKey
          (Some [VInt tid; VBytes (x_gob_encode (toWire i
             {| tt_version := 1; tt_name := tn; tt_cols := cn; tt_types := ct; tt_key := p |}))]) = Some it
       | None => False
       end ->
       P (t_replace_or_insert t it)) ->
    keeps P (vCreateTable tid tn cn ct p).
  Proof.
    intros H. unfold vCreateTable. destruct (tid <? EngineTableId); [apply keeps_panic|].
    apply keeps_bind; [apply keeps_getTableType|]. intros [ty|]; [apply keeps_panic|].
    destruct (negb _); [apply keeps_panic|]. destruct p as [p|]; [|apply keeps_panic].
    destruct (badRowId 0 cn ct p); [apply keeps_fail|]. destruct (existsb _ p); [apply keeps_panic|].
    unfold vSetTableType. apply keeps_getI_bind. intros i.
    unfold vlift. destruct (rowToItem _ _ _) as [it|] eqn:E.
    - intros t i1 r t' i' Ht E1. injection E1 as _ <- _. eapply H; eauto.
    - intros t i1 r t' i' Ht E1. injection E1 as _ <- _. exact Ht.
  Qed.

  Lemma keeps_DropTable (P : tree -> Prop) tid :
    (forall t it, P t -> rowToItem tableTypesRelation tableTypesKey (Some [VInt tid]) = Some it ->
       P (fst (t_delete t it))) ->
    keeps P (vDropTable tid).
  Proof.
    intros H. unfold vDropTable. apply keeps_bind; [apply keeps_getTableType|].
    intros [ty|]; [|apply keeps_panic]. apply keeps_bind.
    - unfold vDeleteTableType, vlift. destruct (rowToItem _ _ _) as [it|] eqn:E.
      + intros t i1 r t' i' Ht E1. injection E1 as _ <- _. apply H; auto.
      + intros t i1 r t' i' Ht E1. injection E1 as _ <- _. exact Ht.
    - intros [|]; [apply keeps_ret|apply keeps_panic].
  Qed.

  Lemma keeps_InsertRows (P : tree -> Prop) tbl rs :
    (forall t r r' it, P t -> In r rs -> ConvertRow (tt_types (tb_tt tbl)) r = Ok r' ->
       rowToItem (toRelationId (tb_tid tbl)) (tt_key (tb_tt tbl)) (Some r') = Some it ->
       t_has t it = false -> P (t_replace_or_insert t it)) ->
    keeps P (vInsertRows tbl rs).
  Proof.
    induction rs as [|r rs IH]; intros H; [apply keeps_ret|]. simpl.
    intros t i res t' i' Ht E. unfold vbind, vliftRes in E.
    destruct (ConvertRow (tt_types (tb_tt tbl)) r) as [r'|e|] eqn:Er.
    2:{ injection E as _ <- _. exact Ht. }
    2:{ injection E as _ <- _. exact Ht. }
    unfold vlift in E. destruct (rowToItem _ _ _) as [it|] eqn:Ei.
    2:{ injection E as _ <- _. exact Ht. }
    simpl in E. destruct (t_has t it) eqn:Eh.
    { injection E as _ <- _. exact Ht. }
    eapply IH; [|eapply H; eauto; now left|exact E].
    intros; eapply H; eauto. now right.
  Qed.

  Lemma keeps_Delete (P : tree -> Prop) tbl k :
    (forall t, P t -> P (fst (t_delete t (keyToItem (toRelationId (tb_tid tbl)) k)))) ->
    keeps P (vDelete tbl k).
  Proof.
    intros H t i r t' i' Ht E. unfold vDelete, vbind in E. simpl in E.
    destruct (snd _); injection E as _ <- _; auto.
  Qed.

  Lemma keeps_Update (P : tree -> Prop) tbl k cols vals :
    (forall t, P t -> P (fst (t_delete t (keyToItem (toRelationId (tb_tid tbl)) k)))) ->
    (forall t r r' it, P t -> ConvertRow (tt_types (tb_tt tbl)) r = Ok r' ->
       (exists x t1, P t1 /\ t_get t1 (keyToItem (toRelationId (tb_tid tbl)) k) = Some x /\ setColumns (it_row x) cols vals = Some r) ->
       rowToItem (toRelationId (tb_tid tbl)) (tt_key (tb_tt tbl)) (Some r') = Some it ->
       t_has t it = false -> P (t_replace_or_insert t it)) ->
    (forall t x r it, P t -> t_get t (keyToItem (toRelationId (tb_tid tbl)) k) = Some x ->
       setColumns (it_row x) cols vals = Some r -> ColumnKeyUpdated (tt_key (tb_tt tbl)) cols = false ->
       rowToItem (toRelationId (tb_tid tbl)) (tt_key (tb_tt tbl)) (Some r) = Some it ->
       P (t_replace_or_insert t it)) ->
    keeps P (vUpdate tbl k cols vals).
  Proof.
    intros Hd Hi Hu t i r t' i' Ht E. unfold vUpdate in E.
    destruct (negb _); [injection E as _ <- _; exact Ht|].
    unfold vbind at 1, vread at 1 in E. simpl in E.
    destruct (t_get t _) as [x|] eqn:Eg; [|injection E as _ <- _; exact Ht].
    unfold vbind at 1, vlift at 1 in E. destruct (setColumns (it_row x) cols vals) as [r1|] eqn:Ec.
    2:{ injection E as _ <- _; exact Ht. }
    simpl in E. destruct (ColumnKeyUpdated _ _) eqn:Ek.
    - assert (keeps P (vbind (vDelete tbl k) (fun _ => vInsertRows tbl [r1]))) as K.
      { apply keeps_bind; [now apply keeps_Delete|]. intros _. apply keeps_InsertRows.
        intros t0 r0 r' it H0 [<-|[]] H1 H2 H3. eapply Hi; eauto. }
      eapply K; eassumption.
    - unfold vbind, vlift in E. destruct (rowToItem _ _ _) as [it|] eqn:Ei.
      + injection E as _ <- _. eapply Hu; eauto.
      + injection E as _ <- _. exact Ht.
  Qed.

  Lemma vstep_sorted v c out v' : sorted (v_tree v) -> vstep v c = (out, v') -> sorted (v_tree v').
  Proof.
    assert (forall A (f : vtx -> A -> outcome * vtx) (m : V A),
      (forall u a, v_tree (snd (f u a)) = v_tree u) -> keeps sorted m ->
      sorted (v_tree v) -> vrun f m v = (out, v') -> sorted (v_tree v')) as Hrun.
    { intros A f m Hf K S E. unfold vrun in E. destruct (m (v_tree v, v_idt v)) as [r [t' i']] eqn:Em.
      apply K in Em; [|exact S]. destruct r as [a|e|].
      - specialize (Hf (v_with v (t', i')) a). rewrite E in Hf. simpl in Hf. now rewrite Hf.
      - injection E as _ <-. exact Em.
      - injection E as _ <-. exact Em. }
    intros S E.
    destruct c as [tid tn cn ct p|tid tn cn ct p|tid| | | |i|i cols mn mx p|i rs|i|i|i|i cols vals|i]; simpl in E;
      try (injection E as _ <-; exact S).
    - eapply Hrun in E; eauto. apply keeps_OpenTable.
    - eapply Hrun in E; eauto. apply keeps_CreateTable. intros. now apply insert_sorted.
    - eapply Hrun in E; eauto. apply keeps_DropTable. intros. now apply delete_sorted.
    - destruct (nth_error _ _); injection E as _ <-; exact S.
    - destruct (nth_error _ _) as [tbl|]; [|injection E as _ <-; exact S].
      eapply Hrun in E; eauto. apply keeps_Rows.
    - destruct (nth_error _ _) as [tbl|]; [|injection E as _ <-; exact S].
      eapply Hrun in E; eauto. apply keeps_InsertRows. intros. now apply insert_sorted.
    - destruct (nth_error _ _) as [rs|]; [|injection E as _ <-; exact S].
      destruct (_ <? _); [injection E as _ <-; exact S|]. destruct (_ =? _); [injection E as _ <-; exact S|].
      destruct (znth _ _); injection E as _ <-; exact S.
    - destruct (nth_error _ _) as [rs|]; [|injection E as _ <-; exact S].
      destruct (_ <=? _); [injection E as _ <-; exact S|]. destruct (znth _ _); injection E as _ <-; exact S.
    - destruct (nth_error _ _) as [rs|]; [|injection E as _ <-; exact S].
      destruct (_ <? _); injection E as _ <-; exact S.
    - destruct (nth_error _ _) as [rr|]; [|injection E as _ <-; exact S].
      destruct (nth_error _ _) as [tbl|]; [|injection E as _ <-; exact S].
      eapply Hrun in E; eauto. apply keeps_Update; intros.
      + now apply delete_sorted. + now apply insert_sorted. + now apply insert_sorted.
    - destruct (nth_error _ _) as [rr|]; [|injection E as _ <-; exact S].
      destruct (nth_error _ _) as [tbl|]; [|injection E as _ <-; exact S].
      eapply Hrun in E; eauto. apply keeps_Delete; intros. now apply delete_sorted.
  Qed.

  Lemma vRows_pure tb mn mx p s : snd (vRows tb mn mx p s) = s.
  Proof.
    unfold vRows, vbind, vlift, vret, vread, vpanic.
    destruct mx as [r1|]; [destruct (rowToItem _ _ (Some r1)); [|reflexivity]|];
    (destruct p as [q|]; [destruct (znth _ (p_column q)); [destruct (predicateFunction _ _)|]|]; try reflexivity;
     destruct (rowToItem _ _ mn); try reflexivity; destruct (scanItems _ _ _ _); reflexivity).
  Qed.

  (** How a call changes tables, row sets, references and their number. *)
  Inductive vobj (v : vtx) : txcall -> outcome -> vtx -> Prop :=
    | VSame c out v' :
        v_tables v' = v_tables v -> v_rows v' = v_rows v -> v_refs v' = v_refs v -> v_count v' = v_count v ->
        (out = ODone -> match c with COpenTable _ _ _ _ _ | CRows _ _ _ _ _ | CClose _ | CCurrent _ => False | _ => True end) ->
        (forall r, out <> ORow r) ->
        vobj v c out v'
    | VOpen tid tn cn ct p tb v' :
        v_tables v' = v_tables v ++ [tb] -> v_rows v' = v_rows v -> v_refs v' = v_refs v -> v_count v' = v_count v ->
        vobj v (COpenTable tid tn cn ct p) ODone v'
    | VRows i cols mn mx p items tb v' :
        nth_error (v_tables v) i = Some tb -> v_tree v' = v_tree v -> v_idt v' = v_idt v ->
        v_tables v' = v_tables v -> v_refs v' = v_refs v -> v_count v' = v_count v + 1 ->
        v_rows v' = v_rows v ++ [{| rs_tbl := i; rs_cols := cols; rs_items := items; rs_next := 0 |}] ->
        vobj v (CRows i cols mn mx p) ODone v'
    | VNext i rs it :
        nth_error (v_rows v) i = Some rs -> 0 <= rs_next rs -> znth (rs_items rs) (rs_next rs) = Some it ->
        vobj v (CNext i)
          (match rs_cols rs with
           | Some cols => match projectRow cols (it_row it) with Some r => ORow r | None => OPanic end
           | None => ORow (it_row it)
           end) (v_set_rows v (v_count v) i (rs_at rs (rs_next rs + 1)))
    | VCurrent i rs it :
        nth_error (v_rows v) i = Some rs -> 0 < rs_next rs -> znth (rs_items rs) (rs_next rs - 1) = Some it ->
        vobj v (CCurrent i) ODone (v_add_ref v {| rr_tbl := rs_tbl rs; rr_key := it_key it |})
    | VClose i rs :
        nth_error (v_rows v) i = Some rs -> 0 <= rs_next rs ->
        vobj v (CClose i) ODone (v_set_rows v (v_count v - 1) i (rs_at rs (-1))).

  Lemma vstep_obj v c out v' : vstep v c = (out, v') -> vobj v c out v'.
  Proof.
    assert (forall m, match c with COpenTable _ _ _ _ _ | CRows _ _ _ _ _ | CClose _ | CCurrent _ => False | _ => True end ->
      vrun (fun v (_ : unit) => (ODone, v)) m v = (out, v') -> vobj v c out v') as Hrun.
    { intros m Hc E. unfold vrun in E. destruct (m (v_tree v, v_idt v)) as [r [t' i']].
      destruct r as [a|e|]; injection E as <- <-; apply VSame; simpl; auto; discriminate. }
    assert (forall o, (o = ODone -> match c with COpenTable _ _ _ _ _ | CRows _ _ _ _ _ | CClose _ | CCurrent _ => False | _ => True end) ->
       (forall r, o <> ORow r) -> (o, v) = (out, v') -> vobj v c out v') as Hsame.
    { intros o Ho Hr [= <- <-]. apply VSame; auto. }
    intros E.
    destruct c as [tid tn cn ct p|tid tn cn ct p|tid| | | |i|i cols mn mx p|i rs|i|i|i|i cols vals|i]; simpl in E;
      try (eapply Hsame; [|  |exact E]; discriminate); try (eapply Hrun; [exact I|exact E]).
    - unfold vrun in E. destruct (vOpenTable _ _ _ _ _ _) as [r [t' i']].
      destruct r as [a|e|]; injection E as <- <-.
      + eapply VOpen; reflexivity.
      + apply VSame; simpl; auto; discriminate.
      + apply VSame; simpl; auto; discriminate.
    - apply Hsame with ODone; [auto|discriminate|exact E].
    - destruct (nth_error _ _); (eapply Hsame; [| |exact E]; discriminate).
    - destruct (nth_error (v_tables v) i) as [tb|] eqn:Eb; [|eapply Hsame; [| |exact E]; discriminate].
      unfold vrun in E. destruct (vRows tb mn mx p (v_tree v, v_idt v)) as [r [t' i']] eqn:Er.
      assert (t' = v_tree v /\ i' = v_idt v) as [-> ->].
      { pose proof (vRows_pure tb mn mx p (v_tree v, v_idt v)) as K. rewrite Er in K. now injection K. }
      destruct r as [a|e|]; injection E as <- <-.
      + eapply VRows; try reflexivity. exact Eb.
      + apply VSame; simpl; auto; discriminate.
      + apply VSame; simpl; auto; discriminate.
    - destruct (nth_error _ _); [eapply Hrun; [exact I|exact E]|eapply Hsame; [| |exact E]; discriminate].
    - destruct (nth_error (v_rows v) i) as [rs|] eqn:Eb; [|eapply Hsame; [| |exact E]; discriminate].
      destruct (rs_next rs <? 0) eqn:E1; [eapply Hsame; [| |exact E]; discriminate|].
      destruct (rs_next rs =? _); [eapply Hsame; [| |exact E]; discriminate|].
      destruct (znth _ _) as [it|] eqn:Ez; [|eapply Hsame; [| |exact E]; discriminate].
      injection E as <- <-. apply VNext; auto. apply Z.ltb_ge in E1. exact E1.
    - destruct (nth_error (v_rows v) i) as [rs|] eqn:Eb; [|eapply Hsame; [| |exact E]; discriminate].
      destruct (rs_next rs <=? 0) eqn:E1; [eapply Hsame; [| |exact E]; discriminate|].
      destruct (znth _ _) as [it|] eqn:Ez; [|eapply Hsame; [| |exact E]; discriminate].
      injection E as <- <-. apply VCurrent; auto. apply Z.leb_gt in E1. exact E1.
    - destruct (nth_error (v_rows v) i) as [rs|] eqn:Eb; [|eapply Hsame; [| |exact E]; discriminate].
      destruct (rs_next rs <? 0) eqn:E1; [eapply Hsame; [| |exact E]; discriminate|].
      injection E as <- <-. apply VClose; auto. apply Z.ltb_ge in E1. exact E1.
    - destruct (nth_error _ _) as [rr|]; [|eapply Hsame; [| |exact E]; discriminate].
      destruct (nth_error _ _); [eapply Hrun; [exact I|exact E]|eapply Hsame; [| |exact E]; discriminate].
    - destruct (nth_error _ _) as [rr|]; [|eapply Hsame; [| |exact E]; discriminate].
      destruct (nth_error _ _); [eapply Hrun; [exact I|exact E]|eapply Hsame; [| |exact E]; discriminate].
  Qed.

  Lemma Forall_set_nth {A} (P : A -> Prop) i x l : Forall P l -> P x -> Forall P (set_nth i x l).
  Proof.
    intros H Hx. revert i. induction H as [|y l Hy H IH]; intros [|i]; simpl; constructor; auto.
  Qed.

  Lemma filter_set_nth {A} (f : A -> bool) i x y l :
    nth_error l i = Some y ->
    zlen (filter f (set_nth i x l)) = zlen (filter f l) + (if f x then 1 else 0) - (if f y then 1 else 0).
  Proof.
    revert l. induction i as [|i IH]; intros [|z l] E; try discriminate; simpl in *.
    - injection E as ->. unfold zlen. destruct (f x), (f y); simpl; lia.
    - specialize (IH l E). unfold zlen in *. destruct (f z); simpl; lia.
  Qed.

  Lemma vstep_vok v c out v' : vok v -> vstep v c = (out, v') -> vok v'.
  Proof.
    intros (S & C & R & T1 & T2) E. pose proof (vstep_sorted _ _ _ _ S E) as S'.
    apply vstep_obj in E. split; [exact S'|].
    destruct E as [c out v' H1 H2 H3 H4 _ _|tid tn cn ct p tb v' H1 H2 H3 H4|i cols mn mx p items tb v' Hb H1 H2 H3 H4 H5 H6
      |i rs it H1 H2 H3|i rs it H1 H2 H3|i rs H1 H2].
    - rewrite H1, H2, H3, H4. auto.
    - rewrite H1, H2, H3, H4. split; [auto|]. split; [auto|]. rewrite app_length.
      split; eapply Forall_impl; eauto; simpl; intros; lia.
    - assert (i < length (v_tables v))%nat as Hi by (apply nth_error_Some; congruence).
      rewrite H3, H4, H5, H6. split; [|split; [|split]].
      + rewrite filter_app, C. unfold zlen. rewrite app_length. simpl. lia.
      + apply Forall_app. split; [exact R|]. constructor; [|constructor]. unfold rs_ok, zlen; simpl. lia.
      + apply Forall_app. split; [exact T1|]. constructor; [exact Hi|constructor].
      + exact T2.
    - simpl. pose proof (nth_error_In _ _ H1) as Hin.
      pose proof (proj1 (Forall_forall _ _) R rs Hin) as Rk. pose proof (proj1 (Forall_forall _ _) T1 rs Hin) as Tk.
      apply znth_Some in H3.
      split; [|split; [|split]].
      + rewrite (filter_set_nth _ _ _ rs) by exact H1. rewrite C.
        assert (open_rs rs = true) as -> by (apply Z.leb_le; exact H2).
        assert (open_rs (rs_at rs (rs_next rs + 1)) = true) as -> by (apply Z.leb_le; simpl; lia). lia.
      + apply Forall_set_nth; [exact R|]. unfold rs_ok in *; simpl. lia.
      + apply Forall_set_nth; [exact T1|exact Tk].
      + exact T2.
    - simpl. split; [exact C|]. split; [exact R|]. split; [exact T1|].
      apply Forall_app. split; [exact T2|]. constructor; [|constructor]. simpl.
      exact (proj1 (Forall_forall _ _) T1 rs (nth_error_In _ _ H1)).
    - simpl. pose proof (nth_error_In _ _ H1) as Hin.
      pose proof (proj1 (Forall_forall _ _) T1 rs Hin) as Tk.
      split; [|split; [|split]].
      + rewrite (filter_set_nth _ _ _ rs) by exact H1. rewrite C.
        assert (open_rs rs = true) as -> by (apply Z.leb_le; exact H2).
        assert (open_rs (rs_at rs (-1)) = false) as -> by reflexivity. lia.
      + apply Forall_set_nth; [exact R|]. unfold rs_ok, zlen in *; simpl. lia.
      + apply Forall_set_nth; [exact T1|exact Tk].
      + exact T2.
  Qed.
End Keeps.
