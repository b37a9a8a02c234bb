(** The store with values instead of pointers to trees, and the proof that the
    code implements it: the basis of the properties of the store. *)

From Verif Require Import ModelStore LemmasBase LemmasTree.

(** Computations over the contents a transaction sees and the identifiers. *)
Definition V (A : Type) : Type := tree * idtable -> res A * (tree * idtable).
Definition vret {A} (a : A) : V A := fun s => (Ok a, s).
Definition vfail {A} (e : error) : V A := fun s => (Err e, s).
Definition vpanic {A} : V A := fun s => (Panic, s).
Definition vbind {A B} (m : V A) (f : A -> V B) : V B := fun s =>
  match m s with
  | (Ok a, s') => f a s'
  | (Err e, s') => (Err e, s')
  | (Panic, s') => (Panic, s')
  end.
Definition vread : V tree := fun s => (Ok (fst s), s).
Definition vwrite (t : tree) : V unit := fun s => (Ok tt, (t, snd s)).
Definition vgetI : V idtable := fun s => (Ok (snd s), s).
Definition vputI (i : idtable) : V unit := fun s => (Ok tt, (fst s, i)).
Definition vlift {A} (o : option A) : V A := match o with Some a => vret a | None => vpanic end.
Definition vliftRes {A} (r : res A) : V A := fun s => (r, s).

Section Values.
  Context {X : FloatLib} {L : CaseLib} {G : GobLib}.

  Definition vGetTableType (tid : Z) : V (option tabletype) :=
    vbind (vlift (rowToItem tableTypesRelation tableTypesKey (Some [VInt tid]))) (fun it =>
    vbind vread (fun t =>
    match t_get t it with
    | None => vret None
    | Some it =>
        match it_row it with
        | [_; VBytes b] =>
            match x_gob_decode b with
            | None => vpanic
            | Some wt =>
                vbind vgetI (fun i =>
                match fromWire i wt with
                | None => vpanic
                | Some (idt, ty) => vbind (vputI idt) (fun _ => vret (Some ty))
                end)
            end
        | _ => vpanic
        end
    end)).

  Definition vSetTableType (tid : Z) (ty : tabletype) : V unit :=
    vbind vgetI (fun i =>
    vbind (vlift (rowToItem tableTypesRelation tableTypesKey
             (Some [VInt tid; VBytes (x_gob_encode (toWire i ty))]))) (fun it =>
    vbind vread (fun t => vwrite (t_replace_or_insert t it)))).

  Definition vDeleteTableType (tid : Z) : V bool :=
    vbind (vlift (rowToItem tableTypesRelation tableTypesKey (Some [VInt tid]))) (fun it =>
    vbind vread (fun t =>
    vbind (vwrite (fst (t_delete t it))) (fun _ => vret (snd (t_delete t it))))).

  Definition vOpenTable (tid : Z) (tn : tablename) (colNames : list Z) (colTypes : list coltype)
      (primary : list Z) : V table :=
    vbind (vGetTableType tid) (fun ott =>
    match ott with
    | None => vpanic
    | Some ty =>
        if negb (tablename_eqb tn (tt_name ty)) then vpanic
        else if negb (list_eqb Z.eqb colNames (tt_cols ty)) then vpanic
        else if negb (list_eqb coltype_eqb colTypes (tt_types ty)) then vpanic
        else if negb (list_eqb Z.eqb primary (tt_key ty)) then vpanic
        else vret {| tb_tid := tid; tb_tt := ty |}
    end).

  Definition vCreateTable (tid : Z) (tn : tablename) (colNames : list Z) (colTypes : list coltype)
      (primary : option (list Z)) : V unit :=
    if tid <? EngineTableId then vpanic
    else
      vbind (vGetTableType tid) (fun ott =>
      match ott with
      | Some _ => vpanic
      | None =>
          if negb (zlen colNames =? zlen colTypes) then vpanic
          else
            match primary with
            | None => vpanic
            | Some primary =>
                if badRowId 0 colNames colTypes primary then vfail ErrRowIdColumn
                else if existsb (fun ck => zlen colNames <=? ckColumn ck) primary then vpanic
                else vSetTableType tid {| tt_version := 1; tt_name := tn; tt_cols := colNames;
                                          tt_types := colTypes; tt_key := primary |}
            end
      end).

  Definition vDropTable (tid : Z) : V unit :=
    vbind (vGetTableType tid) (fun ott =>
    match ott with
    | None => vpanic
    | Some _ => vbind (vDeleteTableType tid) (fun ok => if ok then vret tt else vpanic)
    end).

  Definition vRows (tbl : table) (minRow maxRow : option row) (pred : option predicate) : V (list item) :=
    let rel := toRelationId (tb_tid tbl) in
    let key := tt_key (tb_tt tbl) in
    vbind (match maxRow with
           | None => vret None
           | Some _ => vbind (vlift (rowToItem rel key maxRow)) (fun it => vret (Some it))
           end) (fun maxItem =>
    vbind (match pred with
           | None => vret None
           | Some p =>
               vbind (vlift (znth (tt_types (tb_tt tbl)) (p_column p))) (fun ct =>
               vbind (vlift (predicateFunction p ct)) (fun f => vret (Some (p_column p, f))))
           end) (fun predFn =>
    vbind (vlift (rowToItem rel key minRow)) (fun minItem =>
    vbind vread (fun t =>
    vlift (scanItems rel maxItem predFn (t_ascend_ge t minItem)))))).

  Fixpoint vInsertRows (tbl : table) (rs : list row) : V unit :=
    match rs with
    | [] => vret tt
    | r :: rs' =>
        vbind (vliftRes (ConvertRow (tt_types (tb_tt tbl)) r)) (fun r =>
        vbind (vlift (rowToItem (toRelationId (tb_tid tbl)) (tt_key (tb_tt tbl)) (Some r))) (fun it =>
        vbind vread (fun t =>
        if t_has t it then vfail ErrDuplicateKey
        else vbind (vwrite (t_replace_or_insert t it)) (fun _ => vInsertRows tbl rs'))))
    end.

  Definition vDelete (tbl : table) (key : bytes) : V unit :=
    vbind vread (fun t =>
    let it := keyToItem (toRelationId (tb_tid tbl)) key in
    vbind (vwrite (fst (t_delete t it))) (fun _ =>
    if snd (t_delete t it) then vret tt else vpanic)).

  Definition vUpdate (tbl : table) (key : bytes) (cols : list Z) (vals : list value) : V unit :=
    if negb (zlen cols =? zlen vals) then vpanic
    else
      vbind vread (fun t =>
      match t_get t (keyToItem (toRelationId (tb_tid tbl)) key) with
      | None => vpanic
      | Some it =>
          vbind (vlift (setColumns (it_row it) cols vals)) (fun r =>
          if ColumnKeyUpdated (tt_key (tb_tt tbl)) cols then
            vbind (vDelete tbl key) (fun _ => vInsertRows tbl [r])
          else
            vbind (vlift (rowToItem (toRelationId (tb_tid tbl)) (tt_key (tb_tt tbl)) (Some r))) (fun it' =>
            vbind vread (fun t => vwrite (t_replace_or_insert t it'))))
      end).
End Values.

(** A live transaction seeing contents [t]. *)
Definition sees (s : shared * txstate) (t : tree) : Prop :=
  tx_live (snd s) = true /\
  (exists h, tx_tree (snd s) = Some h /\ nth_error (sh_heap (fst s)) h = Some t) /\
  (exists c, nth_error (sh_heap (fst s)) (sh_tree (fst s)) = Some c).

(** It has its own copy. *)
Definition dirty (s : shared * txstate) : Prop := tx_tree (snd s) <> Some (sh_tree (fst s)).

(** What a method does not change. *)
Definition frame (s s' : shared * txstate) : Prop :=
  sh_tree (fst s') = sh_tree (fst s) /\
  sh_locked (fst s') = sh_locked (fst s) /\
  nth_error (sh_heap (fst s')) (sh_tree (fst s)) = nth_error (sh_heap (fst s)) (sh_tree (fst s)) /\
  tx_count (snd s') = tx_count (snd s) /\
  tx_tables (snd s') = tx_tables (snd s) /\
  tx_rows (snd s') = tx_rows (snd s) /\
  tx_refs (snd s') = tx_refs (snd s).

Lemma frame_refl s : frame s s.
Proof. unfold frame. tauto. Qed.

Lemma frame_trans s1 s2 s3 : frame s1 s2 -> frame s2 s3 -> frame s1 s3.
Proof.
  unfold frame. intros (A1 & A2 & A3 & A4 & A5 & A6 & A7) (B1 & B2 & B3 & B4 & B5 & B6 & B7).
  rewrite A1 in *. repeat split; congruence.
Qed.

(** The code computes the same; [d]: it is only called with an own copy; [d']:
    it returns with an own copy. *)
Definition impl {A} (d d' : bool) (m : M A) (v : V A) : Prop :=
  forall s t, sees s t -> (d = true -> dirty s) ->
  exists r s' t' i',
    m s = (r, s') /\ v (t, sh_idt (fst s)) = (r, (t', i')) /\
    sees s' t' /\ sh_idt (fst s') = i' /\ frame s s' /\
    (d = true \/ (d' = true /\ exists a, r = Ok a) -> dirty s').

Lemma impl_bind {A B} d d1 d2 (m : M A) v (f : A -> M B) g :
  impl d d1 m v -> (forall a, impl (d || d1) d2 (f a) (g a)) -> impl d d2 (bind m f) (vbind v g).
Proof.
  intros Hm Hf s t Hs Hd.
  destruct (Hm s t Hs Hd) as (r & s1 & t1 & i1 & Em & Ev & Hs1 & Hi1 & Fr & Hd1).
  unfold bind, vbind. rewrite Em, Ev. destruct r as [a|e|].
  - destruct (Hf a s1 t1 Hs1) as (r2 & s2 & t2 & i2 & Em2 & Ev2 & Hs2 & Hi2 & Fr2 & Hd2).
    { intros H. apply Hd1. destruct d; [auto|]. right. split; [exact H|eauto]. }
    rewrite Em2. subst i1. rewrite Ev2.
    exists r2, s2, t2, i2. split; [reflexivity|]. split; [reflexivity|]. split; [exact Hs2|].
    split; [exact Hi2|]. split; [eapply frame_trans; eassumption|].
    intros [->|[-> (b & ->)]]; apply Hd2; [left; reflexivity|right; eauto].
  - exists (Err e), s1, t1, i1. split; [reflexivity|]. split; [reflexivity|]. split; [exact Hs1|].
    split; [exact Hi1|]. split; [exact Fr|].
    intros [->|[_ (b & ?)]]; [apply Hd1; auto|discriminate].
  - exists Panic, s1, t1, i1. split; [reflexivity|]. split; [reflexivity|]. split; [exact Hs1|].
    split; [exact Hi1|]. split; [exact Fr|].
    intros [->|[_ (b & ?)]]; [apply Hd1; auto|discriminate].
Qed.

Lemma impl_pure {A} d (r : res A) : impl d d (fun s => (r, s)) (fun s => (r, s)).
Proof.
  intros s t Hs Hd. exists r, s, t, (sh_idt (fst s)).
  split; [reflexivity|]. split; [reflexivity|]. split; [exact Hs|]. split; [reflexivity|].
  split; [apply frame_refl|]. intros [->|[-> _]]; auto.
Qed.

Lemma impl_ret {A} d (a : A) : impl d d (ret a) (vret a).
Proof. apply (impl_pure d (Ok a)). Qed.
Lemma impl_fail {A} d e : impl d d (@fail A e) (vfail e).
Proof. apply (impl_pure d (Err e)). Qed.
Lemma impl_panic {A} d d' : impl d d' (@panic A) vpanic.
Proof.
  intros s t Hs Hd. exists Panic, s, t, (sh_idt (fst s)).
  split; [reflexivity|]. split; [reflexivity|]. split; [exact Hs|]. split; [reflexivity|].
  split; [apply frame_refl|]. intros [->|[_ (a & ?)]]; [auto|discriminate].
Qed.
Lemma impl_lift {A} d (o : option A) : impl d d (lift o) (vlift o).
Proof. destruct o; [apply impl_ret|apply impl_panic]. Qed.
Lemma impl_liftRes {A} d (r : res A) : impl d d (liftRes r) (vliftRes r).
Proof. apply impl_pure. Qed.

Lemma impl_read d : impl d d readTree vread.
Proof.
  intros s t Hs Hd. pose proof Hs as (Hl & (h & Hh & Ht) & Hc).
  exists (Ok t), s, t, (sh_idt (fst s)).
  split. { unfold readTree, bind, getSh, getTx, lift. now rewrite Hh, Ht. }
  split; [reflexivity|]. split; [exact Hs|]. split; [reflexivity|]. split; [apply frame_refl|].
  intros [->|[-> _]]; auto.
Qed.

Lemma set_nth_same {A} n (x : A) l : (n < length l)%nat -> nth_error (set_nth n x l) n = Some x.
Proof.
  revert l. induction n as [|n IH]; intros [|y l] H; simpl in *; try lia; [reflexivity|].
  apply IH. lia.
Qed.
Lemma set_nth_other {A} n m (x : A) l : n <> m -> nth_error (set_nth n x l) m = nth_error l m.
Proof.
  revert l m. induction n as [|n IH]; intros [|y l] [|m] H; simpl; try reflexivity; try congruence.
  apply IH. congruence.
Qed.
Lemma set_nth_length {A} n (x : A) l : length (set_nth n x l) = length l.
Proof. revert l. induction n as [|n IH]; intros [|y l]; simpl; auto. Qed.

Lemma impl_write t' : impl true true (writeTree t') (vwrite t').
Proof.
  intros s t (Hl & (h & Hh & Ht) & (c & Hc)) Hd. specialize (Hd eq_refl). unfold dirty in Hd.
  assert (h <> sh_tree (fst s)) as N by congruence.
  assert (h < length (sh_heap (fst s)))%nat as Hlt by (apply nth_error_Some; congruence).
  eexists (Ok tt), (_, _), t', _.
  split. { unfold writeTree, bind, getSh, getTx. rewrite Hh. reflexivity. }
  split; [reflexivity|].
  split. { split; [exact Hl|]. split; [exists h; split; [exact Hh|apply set_nth_same; exact Hlt]|].
           exists c. simpl. now rewrite set_nth_other. }
  split; [reflexivity|].
  split. { unfold frame; simpl. rewrite set_nth_other by exact N. tauto. }
  intros _. exact Hd.
Qed.

Lemma impl_forWrite d {B} d2 (f : unit -> M B) v :
  impl true d2 (f tt) v -> impl d d2 (bind forWrite f) v.
Proof.
  intros Hf s t Hs Hd. pose proof Hs as (Hl & (h & Hh & Ht) & (c & Hc)).
  assert (exists s1, forWrite s = (Ok tt, s1) /\ sees s1 t /\ dirty s1 /\ frame s s1 /\
            sh_idt (fst s1) = sh_idt (fst s)) as (s1 & E & Hs1 & Hd1 & Fr & Hi).
  { unfold forWrite, bind, getSh, getTx. rewrite Hl, Hh. simpl.
    destruct (h =? sh_tree (fst s))%nat eqn:Eh.
    - apply Nat.eqb_eq in Eh. subst h. rewrite Ht. unfold lift, ret, putSh, putTx. simpl.
      eexists. split; [reflexivity|]. assert (c = t) as -> by congruence.
      assert (sh_tree (fst s) < length (sh_heap (fst s)))%nat as Hlt by (apply nth_error_Some; congruence).
      split; [|split; [|split]].
      + split; [exact Hl|]. split.
        * exists (length (sh_heap (fst s))). split; [reflexivity|]. simpl.
          rewrite nth_error_app2 by lia. now rewrite Nat.sub_diag.
        * exists t. simpl. now rewrite nth_error_app1.
      + unfold dirty. simpl. intros [= E]. lia.
      + unfold frame; simpl. rewrite nth_error_app1 by exact Hlt. tauto.
      + reflexivity.
    - apply Nat.eqb_neq in Eh. eexists. split; [reflexivity|]. split; [exact Hs|].
      split; [unfold dirty; congruence|]. split; [apply frame_refl|reflexivity]. }
  destruct (Hf s1 t Hs1 (fun _ => Hd1)) as (r2 & s2 & t2 & i2 & Em2 & Ev2 & Hs2 & Hi2 & Fr2 & Hd2).
  unfold bind. rewrite E. rewrite Em2. rewrite Hi in Ev2.
  exists r2, s2, t2, i2. split; [reflexivity|]. split; [exact Ev2|]. split; [exact Hs2|].
  split; [exact Hi2|]. split; [eapply frame_trans; eassumption|].
  intros _. apply Hd2. now left.
Qed.

Lemma impl_getI {B} d d2 (f : shared -> M B) (g : idtable -> V B) :
  (forall sh, impl d d2 (f sh) (g (sh_idt sh))) -> impl d d2 (bind getSh f) (vbind vgetI g).
Proof.
  intros H s t Hs Hd. destruct (H (fst s) s t Hs Hd) as (r & s' & t' & i' & E1 & E2 & R).
  exists r, s', t', i'. split; [exact E1|]. split; [exact E2|exact R].
Qed.

(** Reading the shared state and writing it back with other identifiers. *)
Lemma impl_putI {A} d i (a : A) :
  forall s t, sees s t -> (d = true -> dirty s) ->
  let s' := (sh_with_idt (fst s) i, snd s) in
  bind (putSh (sh_with_idt (fst s) i)) (fun _ => ret a) s = (Ok a, s') /\
  vbind (vputI i) (fun _ => vret a) (t, sh_idt (fst s)) = (Ok a, (t, i)) /\
  sees s' t /\ frame s s' /\ (d = true -> dirty s').
Proof.
  intros s t Hs Hd s'. split; [reflexivity|]. split; [reflexivity|].
  split; [exact Hs|]. split; [subst s'; unfold frame; simpl; tauto|exact Hd].
Qed.

Section Impl.
  Context {X : FloatLib} {L : CaseLib} {G : GobLib}.

  Lemma impl_getTableType d tid : impl d d (getTableType tid) (vGetTableType tid).
  Proof.
    unfold getTableType, vGetTableType.
    eapply impl_bind; [apply impl_lift|]. intros it.
    eapply impl_bind; [apply impl_read|]. intros t0. rewrite orb_diag, orb_diag.
    destruct (t_get t0 it) as [x|]; [|apply impl_ret].
    destruct (it_row x) as [|v1 [|v2 [|v3 r]]]; try apply impl_panic;
      destruct v2; try apply impl_panic.
    destruct (x_gob_decode s) as [wt|]; [|apply impl_panic].
    intros st t Hs Hd. unfold bind at 1, getSh at 1. unfold vbind at 1, vgetI at 1. simpl.
    destruct (fromWire (sh_idt (fst st)) wt) as [[i ty]|].
    - pose proof (impl_putI d i (Some ty) st t Hs Hd) as (E1 & E2 & Hs' & Fr & Hd').
      eexists _, _, _, _. split; [exact E1|]. split; [exact E2|]. split; [exact Hs'|].
      split; [reflexivity|]. split; [exact Fr|]. intros [H|[H _]]; apply Hd'; exact H.
    - apply (impl_panic d d); assumption.
  Qed.

  Lemma impl_setTableType tid ty : impl true true (setTableType tid ty) (vSetTableType tid ty).
  Proof.
    unfold setTableType, vSetTableType. apply impl_getI. intros sh.
    eapply impl_bind; [apply impl_lift|]. intros it.
    eapply impl_bind; [apply impl_read|]. intros t. apply impl_write.
  Qed.

  Lemma impl_deleteTableType tid : impl true true (deleteTableType tid) (vDeleteTableType tid).
  Proof.
    unfold deleteTableType, vDeleteTableType.
    eapply impl_bind; [apply impl_lift|]. intros it.
    eapply impl_bind; [apply impl_read|]. intros t.
    destruct (t_delete t it) as [t' ok]; simpl.
    eapply impl_bind; [apply impl_write|]. intros _. apply impl_ret.
  Qed.

  Lemma impl_CreateTable tid tn cn ct p : impl false false (CreateTable tid tn cn ct p) (vCreateTable tid tn cn ct p).
  Proof.
    unfold CreateTable, vCreateTable.
    destruct (tid <? EngineTableId); [apply impl_panic|].
    eapply impl_bind; [apply impl_getTableType|]. intros [ty|]; [apply impl_panic|].
    destruct (negb _); [apply impl_panic|]. destruct p as [p|]; [|apply impl_panic].
    destruct (badRowId 0 cn ct p); [apply impl_fail|]. destruct (existsb _ p); [apply impl_panic|].
    apply impl_forWrite. intros s t Hs Hd.
    destruct (impl_setTableType tid {| tt_version := 1; tt_name := tn; tt_cols := cn; tt_types := ct; tt_key := p |} s t Hs Hd)
      as (r & s' & t' & i' & E1 & E2 & H1 & H2 & H3 & H4).
    exists r, s', t', i'. split; [exact E1|]. split; [exact E2|]. split; [exact H1|].
    split; [exact H2|]. split; [exact H3|]. intros _. apply H4. now left.
  Qed.

  Lemma impl_weaken {A} d d1 d2 (m : M A) v : impl d d1 m v -> (d2 = true -> d = true \/ d1 = true) -> impl d d2 m v.
  Proof.
    intros H Hd s t Hs Hs'. destruct (H s t Hs Hs') as (r & s' & t' & i' & E1 & E2 & H1 & H2 & H3 & H4).
    exists r, s', t', i'. split; [exact E1|]. split; [exact E2|]. split; [exact H1|].
    split; [exact H2|]. split; [exact H3|]. intros [K|[K1 K2]]; apply H4; [auto|].
    destruct (Hd K1); auto.
  Qed.

  Lemma impl_DropTable tid : impl false false (DropTable tid) (vDropTable tid).
  Proof.
    unfold DropTable, vDropTable.
    eapply impl_bind; [apply impl_getTableType|]. intros [ty|]; [|apply impl_panic].
    apply impl_forWrite.
    eapply impl_bind; [apply impl_deleteTableType|]. intros [|]; [|apply impl_panic].
    eapply impl_weaken; [apply impl_ret|auto].
  Qed.

  Lemma impl_insertRows tbl rs : impl true true (insertRows tbl rs) (vInsertRows tbl rs).
  Proof.
    induction rs as [|r rs IH]; simpl; [apply impl_ret|].
    eapply impl_bind; [apply impl_liftRes|]. intros r'.
    eapply impl_bind; [apply impl_lift|]. intros it.
    eapply impl_bind; [apply impl_read|]. intros t. simpl.
    destruct (t_has t it); [apply impl_fail|].
    eapply impl_bind; [apply impl_write|]. intros _. exact IH.
  Qed.

  Lemma impl_Insert d tbl rs : impl d false (Insert tbl rs) (vInsertRows tbl rs).
  Proof. unfold Insert. apply impl_forWrite. eapply impl_weaken; [apply impl_insertRows|auto]. Qed.

  Lemma impl_Delete d tbl k : impl d false (Delete tbl k) (vDelete tbl k).
  Proof.
    unfold Delete. apply impl_forWrite. unfold vDelete.
    eapply impl_bind; [apply impl_read|]. intros t.
    destruct (t_delete t _) as [t' ok]; simpl.
    eapply impl_bind; [apply impl_write|]. intros _. simpl. destruct ok; [|apply impl_panic].
    eapply impl_weaken; [apply impl_ret|auto].
  Qed.

  Lemma impl_Update tbl k cols vals : impl false false (Update tbl k cols vals) (vUpdate tbl k cols vals).
  Proof.
    unfold Update, vUpdate. destruct (negb _); [apply impl_panic|].
    eapply impl_bind; [apply impl_read|]. intros t.
    destruct (t_get t _) as [it|]; [|apply impl_panic].
    eapply impl_bind; [apply impl_lift|]. intros r.
    apply impl_forWrite. destruct (ColumnKeyUpdated _ _).
    - eapply impl_bind; [apply impl_Delete|]. intros _. apply impl_Insert.
    - eapply impl_bind; [apply impl_lift|]. intros it'.
      eapply impl_bind; [apply impl_read|]. intros t1. simpl.
      eapply impl_weaken; [apply impl_write|auto].
  Qed.
End Impl.
