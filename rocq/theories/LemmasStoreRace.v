(** Methods of the store that are interrupted anywhere act as single steps. *)

From Verif Require Import ModelStoreRace SpecStoreRace LemmasBase.

Section Race.
  Context {X : FloatLib} {L : CaseLib} {G : GobLib}.

  (** ** A method that is not interrupted *)

  Fixpoint exec (c : scode) (sh : shared) (tx : txstate) : outcome * (shared * txstate) :=
    match c with
    | SRet out => (out, (sh, tx))
    | SGet k => exec (k tx) sh tx
    | SPut tx' k =>
        exec k sh {| tx_live := tx_live tx; tx_tree := tx_tree tx; tx_count := tx_count tx'; tx_tables := tx_tables tx';
                     tx_rows := tx_rows tx'; tx_refs := tx_refs tx' |}
    | SNil k =>
        exec k sh {| tx_live := false; tx_tree := None; tx_count := tx_count tx; tx_tables := tx_tables tx;
                     tx_rows := tx_rows tx; tx_refs := tx_refs tx |}
    | SStoreTree k => if tx_live tx then exec (k (sh_tree sh)) sh tx else (OPanic, (sh, tx))
    | SSetStoreTree k =>
        match tx_live tx, tx_tree tx with
        | true, Some h => exec k {| sh_heap := sh_heap sh; sh_tree := h; sh_locked := sh_locked sh; sh_idt := sh_idt sh |} tx
        | _, _ => (OPanic, (sh, tx))
        end
    | SClone h k =>
        match tx_live tx, nth_error (sh_heap sh) h with
        | true, Some t => exec k (sh_with_heap sh (sh_heap sh ++ [t])) (tx_with_tree tx (Some (length (sh_heap sh))))
        | _, _ => (OPanic, (sh, tx))
        end
    | SRead k =>
        match tx_tree tx with
        | Some h => match nth_error (sh_heap sh) h with Some t => exec (k t) sh tx | None => (OPanic, (sh, tx)) end
        | None => (OPanic, (sh, tx))
        end
    | SWrite t k =>
        match tx_tree tx with
        | Some h => exec k (sh_with_heap sh (set_nth h t (sh_heap sh))) tx
        | None => (OPanic, (sh, tx))
        end
    | SDecode wt k =>
        match fromWire (sh_idt sh) wt with
        | Some (idt, ty) => exec (k ty) (sh_with_idt sh idt) tx
        | None => (OPanic, (sh, tx))
        end
    | SEncode ty k => exec (k (toWire (sh_idt sh) ty)) sh tx
    | SUnlock k =>
        if tx_live tx then
          exec k {| sh_heap := sh_heap sh; sh_tree := sh_tree sh; sh_locked := false; sh_idt := sh_idt sh |} tx
        else (OPanic, (sh, tx))
    end.

  Lemma exec_sact sh tx c sh' tx' c' : sact sh tx c = (sh', tx', c') -> exec c sh tx = exec c' sh' tx'.
  Proof.
    destruct c; cbn [sact exec]; intros H;
      repeat match type of H with context [match ?e with _ => _ end] => destruct e eqn:? end;
      injection H as <- <- <-; reflexivity.
  Qed.

  (** It is the method of ModelStore. *)
  Definition agrees {A : Type} (m : SM A) (n : M A) : Prop := forall k sh tx,
    exec (m k) sh tx = match n (sh, tx) with
      | (Ok a, (sh', tx')) => exec (k a) sh' tx'
      | (Err e, (sh', tx')) => (OErr e, (sh', tx'))
      | (Panic, (sh', tx')) => (OPanic, (sh', tx'))
      end.

  Lemma ag_bind {A B} (m : SM A) n (f : A -> SM B) g : agrees m n -> (forall a, agrees (f a) (g a)) -> agrees (sbind m f) (bind n g).
  Proof. intros H K k sh tx. unfold sbind, bind. rewrite H. destruct (n (sh, tx)) as [[a|e|] [sh' tx']]; [|reflexivity..]. now rewrite K. Qed.
  Lemma ag_ret {A} (a : A) : agrees (sret a) (ret a).
  Proof. intros k sh tx. reflexivity. Qed.
  Lemma ag_fail {A} e : agrees (@sfail A e) (fail e).
  Proof. intros k sh tx. reflexivity. Qed.
  Lemma ag_panic {A} : agrees (@spanic A) panic.
  Proof. intros k sh tx. reflexivity. Qed.
  Lemma ag_lift {A} (o : option A) : agrees (slift o) (lift o).
  Proof. destruct o; [apply ag_ret|apply ag_panic]. Qed.
  Lemma ag_lift_res {A} (r : res A) : agrees (sliftRes r) (liftRes r).
  Proof. destruct r; intros k sh tx; reflexivity. Qed.
  Lemma ag_read : agrees sread readTree.
  Proof.
    intros k sh tx. unfold sread, readTree, bind, getSh, getTx. cbn [exec fst snd]. destruct (tx_tree tx) as [h|]; [|reflexivity].
    unfold lift. destruct (nth_error (sh_heap sh) h); reflexivity.
  Qed.
  Lemma ag_write t : agrees (swrite t) (writeTree t).
  Proof. intros k sh tx. unfold swrite, writeTree, bind, getSh, getTx, putSh, panic. cbn [exec fst snd]. destruct (tx_tree tx) as [h|]; reflexivity. Qed.
  Lemma ag_get {B} (f : txstate -> SM B) g : (forall tx, agrees (f tx) (g tx)) -> agrees (sbind sgetTx f) (bind getTx g).
  Proof. intros H k sh tx. unfold sbind, bind, sgetTx, getTx. cbn [exec fst snd]. apply H. Qed.

  Definition same_pointers (f : txstate -> txstate) : Prop := forall tx, tx_live (f tx) = tx_live tx /\ tx_tree (f tx) = tx_tree tx.
  Lemma ag_put f : same_pointers f -> agrees (sbind sgetTx (fun tx => sputTx (f tx))) (bind getTx (fun tx => putTx (f tx))).
  Proof.
    intros H k sh tx. unfold sbind, bind, sgetTx, getTx, sputTx, putTx. cbn [exec fst snd]. destruct (H tx) as [E1 E2]. rewrite <- E1, <- E2. now destruct (f tx).
  Qed.
  Lemma ag_put_then {B} f (m : SM B) n : same_pointers f -> agrees m n ->
    agrees (sbind sgetTx (fun tx => sbind (sputTx (f tx)) (fun _ => m))) (bind getTx (fun tx => bind (putTx (f tx)) (fun _ => n))).
  Proof.
    intros H K k sh tx. unfold sbind, bind, sgetTx, getTx, sputTx, putTx. cbn [exec fst snd]. rewrite K. destruct (H tx) as [E1 E2]. rewrite <- E1, <- E2. now destruct (f tx).
  Qed.
  Lemma ag_for_write : agrees sforWrite forWrite.
  Proof.
    intros k sh tx. unfold sforWrite, forWrite, sbind, bind, sgetTx, getTx, getSh, sret, ret, panic. cbn [exec fst snd].
    destruct (tx_live tx) eqn:EL; cbn [negb]; [|reflexivity].
    destruct (tx_tree tx) as [h|]; [|reflexivity]. destruct (h =? sh_tree sh)%nat; [|reflexivity]. cbn [exec]. rewrite EL.
    unfold lift. destruct (nth_error (sh_heap sh) (sh_tree sh)); reflexivity.
  Qed.

  Ltac ag := first
    [ apply ag_ret | apply ag_fail | apply ag_panic | apply ag_lift | apply ag_lift_res | apply ag_read | apply ag_write | apply ag_for_write
    | apply ag_put; intros ?; split; reflexivity
    | apply ag_put_then; [intros ?; split; reflexivity|]
    | apply ag_bind; [|intros]
    | match goal with |- agrees (match ?e with _ => _ end) _ => destruct e end
    | match goal with |- agrees (if ?e then _ else _) _ => destruct e end ].

  Lemma ag_get_type tid : agrees (sgetTableType tid) (getTableType tid).
  Proof.
    unfold sgetTableType, getTableType. apply ag_bind; [apply ag_lift|intros it]. apply ag_bind; [apply ag_read|intros t].
    destruct (t_get t it) as [it'|]; [|apply ag_ret]. destruct (it_row it') as [|v1 [|v2 [|v3 r]]]; try apply ag_panic; destruct v2; try apply ag_panic.
    destruct (x_gob_decode s) as [wt|]; [|apply ag_panic].
    intros k sh tx. unfold sbind, bind, getSh, putSh, sret, ret, panic. cbn [exec fst snd]. destruct (fromWire (sh_idt sh) wt) as [[idt ty]|]; reflexivity.
  Qed.
  Lemma ag_set_type tid ty : agrees (ssetTableType tid ty) (setTableType tid ty).
  Proof.
    intros k sh tx. unfold ssetTableType, setTableType, sbind at 1, bind at 1. unfold getSh. cbn [exec fst].
    set (b := x_gob_encode _). revert k sh tx b. intros k sh tx b. clearbody b. revert k sh tx.
    change (agrees (let% it := slift (rowToItem tableTypesRelation tableTypesKey (Some [VInt tid; VBytes b])) in let% t := sread in swrite (t_replace_or_insert t it))
      (let! it := lift (rowToItem tableTypesRelation tableTypesKey (Some [VInt tid; VBytes b])) in let! t := readTree in writeTree (t_replace_or_insert t it))).
    repeat ag.
  Qed.
  Lemma ag_delete_type tid : agrees (sdeleteTableType tid) (deleteTableType tid).
  Proof. unfold sdeleteTableType, deleteTableType. ag; [ag|]. ag; [ag|]. destruct (t_delete a0 a) as [t' ok]. cbn [fst snd]. repeat ag. Qed.
  Lemma ag_open tid tn cn ct p : agrees (sOpenTable tid tn cn ct p) (OpenTable tid tn cn ct p).
  Proof. unfold sOpenTable, OpenTable. apply ag_bind; [apply ag_get_type|intros]. repeat ag. Qed.
  Lemma ag_create tid tn cn ct p : agrees (sCreateTable tid tn cn ct p) (CreateTable tid tn cn ct p).
  Proof.
    unfold sCreateTable, CreateTable. destruct (tid <? EngineTableId); [ag|]. apply ag_bind; [apply ag_get_type|intros [ty|]; [ag|]].
    destruct (negb _); [ag|]. destruct p as [p|]; [|ag]. destruct (badRowId _ _ _ _); [ag|]. destruct (existsb _ _); [ag|]. ag; [ag|]. apply ag_set_type.
  Qed.
  Lemma ag_drop tid : agrees (sDropTable tid) (DropTable tid).
  Proof. unfold sDropTable, DropTable. apply ag_bind; [apply ag_get_type|intros [ty|]; [|ag]]. ag; [ag|]. ag; [apply ag_delete_type|]. repeat ag. Qed.
  Lemma ag_commit : agrees sCommit Commit.
  Proof.
    unfold sCommit, Commit. intros k sh tx. unfold sbind, bind, sgetTx, getTx. cbn [exec fst snd]. destruct (tx_live tx) eqn:EL; cbn [negb]; [|reflexivity].
    destruct (tx_count tx =? 0); cbn [negb]; [|reflexivity]. cbn [exec]. rewrite EL. destruct (tx_tree tx); reflexivity.
  Qed.
  Lemma ag_rollback : agrees sRollback Rollback.
  Proof.
    unfold sRollback, Rollback. intros k sh tx. unfold sbind, bind, sgetTx, getTx. cbn [exec fst snd]. destruct (tx_live tx) eqn:EL; cbn [negb]; [|reflexivity].
    destruct (tx_count tx =? 0); cbn [negb]; [|reflexivity]. cbn [exec]. rewrite EL. reflexivity.
  Qed.
  Lemma ag_rows i t cols mn mx p : agrees (sRows i t cols mn mx p) (Rows i t cols mn mx p).
  Proof. unfold sRows, Rows. ag; [repeat ag|]. ag; [repeat ag|]. repeat ag. Qed.
  Lemma ag_insert_rows t rs : agrees (sinsertRows t rs) (insertRows t rs).
  Proof.
    induction rs as [|r rs IH]; cbn [sinsertRows insertRows]; [ag|]. ag; [ag|]. ag; [ag|]. intros k sh tx.
    unfold sbind at 1 2. unfold sread. cbn [exec]. unfold bind at 1. unfold readTree, bind, getSh, getTx, lift. cbn [fst snd].
    destruct (tx_tree tx) as [h|] eqn:ET; [|reflexivity]. destruct (nth_error (sh_heap sh) h) as [t'|] eqn:EH; [|reflexivity]. cbn [ret].
    destruct (t_has t' a0); [reflexivity|]. unfold sbind, swrite. cbn [exec]. rewrite ET, EH. cbn [exec]. unfold writeTree, bind, getSh, getTx, putSh. cbn [fst snd ret]. rewrite ET. cbn [fst snd].
    exact (IH k _ _).
  Qed.
  Lemma ag_insert t rs : agrees (sInsert t rs) (Insert t rs).
  Proof. unfold sInsert, Insert. ag; [ag|apply ag_insert_rows]. Qed.
  Lemma ag_next i rs : agrees (sNext i rs) (Next i rs).
  Proof. unfold sNext, Next. repeat ag. Qed.
  Lemma ag_current rs : agrees (sCurrent rs) (Current rs).
  Proof. unfold sCurrent, Current. repeat ag. Qed.
  Lemma ag_close i rs : agrees (sClose i rs) (Close i rs).
  Proof. unfold sClose, Close. repeat ag. Qed.
  Lemma ag_delete t key : agrees (sDelete t key) (Delete t key).
  Proof. unfold sDelete, Delete. ag; [ag|]. ag; [ag|]. destruct (t_delete _ _) as [t' ok]. cbn [fst snd]. repeat ag. Qed.
  Lemma ag_update t key cols vals : agrees (sUpdate t key cols vals) (Update t key cols vals).
  Proof.
    unfold sUpdate, Update. destruct (negb _); [ag|]. ag; [ag|]. destruct (t_get _ _); [|ag]. ag; [ag|]. ag; [ag|].
    destruct (ColumnKeyUpdated _ _); [apply ag_bind; [apply ag_delete|intros; apply ag_insert]|]. repeat ag.
  Qed.

  Lemma ag_run {A} (m : SM A) n (f : A -> outcome) sh tx : agrees m n -> exec (m (fun a => SRet (f a))) sh tx = runM f n (sh, tx).
  Proof. intros H. rewrite H. unfold runM. destruct (n (sh, tx)) as [[a|e|] [sh' tx']]; reflexivity. Qed.
  Lemma exec_call c sh tx : exec (scall c) sh tx = callStep (sh, tx) c.
  Proof.
    unfold scall. cbn [exec]. unfold callStep. cbn [snd]. destruct c.
    - apply ag_run, ag_open.
    - apply ag_run, ag_create.
    - apply ag_run, ag_drop.
    - apply ag_run, ag_commit.
    - apply ag_run, ag_rollback.
    - reflexivity.
    - now destruct (nth_error _ _).
    - destruct (nth_error _ _); [|reflexivity]. apply ag_run, ag_rows.
    - destruct (nth_error _ _); [|reflexivity]. apply ag_run, ag_insert.
    - destruct (nth_error _ _); [|reflexivity]. apply ag_run, ag_next.
    - destruct (nth_error _ _); [|reflexivity]. apply ag_run, ag_current.
    - destruct (nth_error _ _); [|reflexivity]. apply ag_run, ag_close.
    - destruct (nth_error _ _) as [rr|]; [|reflexivity]. destruct (nth_error _ _); [|reflexivity]. apply ag_run, ag_update.
    - destruct (nth_error _ _) as [rr|]; [|reflexivity]. destruct (nth_error _ _); [|reflexivity]. apply ag_run, ag_delete.
  Qed.

  (** ** At most one action on identifiers, the mutex last *)

  Inductive noid : scode -> Prop :=
  | ni_ret out : noid (SRet out)
  | ni_get k : (forall tx, noid (k tx)) -> noid (SGet k)
  | ni_put tx k : noid k -> noid (SPut tx k)
  | ni_store k : (forall h, noid (k h)) -> noid (SStoreTree k)
  | ni_clone h k : noid k -> noid (SClone h k)
  | ni_read k : (forall t, noid (k t)) -> noid (SRead k)
  | ni_write t k : noid k -> noid (SWrite t k).
  Inductive once : scode -> Prop :=
  | on_ret out : once (SRet out)
  | on_get k : (forall tx, once (k tx)) -> once (SGet k)
  | on_put tx k : once k -> once (SPut tx k)
  | on_store k : (forall h, once (k h)) -> once (SStoreTree k)
  | on_set k : once k -> once (SSetStoreTree k)
  | on_clone h k : once k -> once (SClone h k)
  | on_read k : (forall t, once (k t)) -> once (SRead k)
  | on_write t k : once k -> once (SWrite t k)
  | on_decode wt k : (forall ty, noid (k ty)) -> once (SDecode wt k)
  | on_encode ty k : (forall wt, noid (k wt)) -> once (SEncode ty k)
  | on_unlock out : once (SUnlock (SNil (SRet out))).
  Lemma noid_once c : noid c -> once c.
  Proof. induction 1; constructor; auto. Qed.

  Definition light {A} (m : SM A) : Prop :=
    (forall k, (forall a, noid (k a)) -> noid (m k)) /\ (forall k, (forall a, once (k a)) -> once (m k)).
  Lemma li_ret {A} (a : A) : light (sret a).
  Proof. split; intros k H; apply H. Qed.
  Lemma li_fail {A} e : light (@sfail A e).
  Proof. split; intros; constructor. Qed.
  Lemma li_panic {A} : light (@spanic A).
  Proof. split; intros; constructor. Qed.
  Lemma li_lift {A} (o : option A) : light (slift o).
  Proof. destruct o; [apply li_ret|apply li_panic]. Qed.
  Lemma li_lift_res {A} (r : res A) : light (sliftRes r).
  Proof. destruct r; [apply li_ret|apply li_fail|apply li_panic]. Qed.
  Lemma li_read : light sread.
  Proof. split; intros k H; now constructor. Qed.
  Lemma li_write t : light (swrite t).
  Proof. split; intros k H; constructor; apply H. Qed.
  Lemma li_get : light sgetTx.
  Proof. split; intros k H; now constructor. Qed.
  Lemma li_put tx : light (sputTx tx).
  Proof. split; intros k H; constructor; apply H. Qed.
  Lemma li_store : light SStoreTree.
  Proof. split; intros k H; now constructor. Qed.
  Lemma li_clone h : light (fun k : unit -> scode => SClone h (k tt)).
  Proof. split; intros k H; constructor; apply H. Qed.
  Lemma li_bind {A B} (m : SM A) (f : A -> SM B) : light m -> (forall a, light (f a)) -> light (sbind m f).
  Proof. intros [H1 H2] K. split; intros k Hk; unfold sbind; [apply H1|apply H2]; intros a; now apply K. Qed.
  Ltac li := match goal with
    | |- light (sret _) => apply li_ret | |- light (sfail _) => apply li_fail | |- light spanic => apply li_panic
    | |- light (slift _) => apply li_lift | |- light (sliftRes _) => apply li_lift_res
    | |- light sread => apply li_read | |- light (swrite _) => apply li_write | |- light sgetTx => apply li_get | |- light (sputTx _) => apply li_put
    | |- light SStoreTree => apply li_store | |- light (fun k => SClone _ (k tt)) => apply li_clone
    | |- light (sbind _ _) => apply li_bind; [|intros] | |- light (match ?e with _ => _ end) => destruct e end.
  Lemma li_for_write : light sforWrite.
  Proof. unfold sforWrite. repeat li. Qed.
  Lemma li_delete_type tid : light (sdeleteTableType tid).
  Proof. unfold sdeleteTableType. repeat li. Qed.
  Lemma li_rows i t cols mn mx p : light (sRows i t cols mn mx p).
  Proof. unfold sRows. repeat li. Qed.
  Lemma li_insert t rs : light (sInsert t rs).
  Proof. unfold sInsert. apply li_bind; [apply li_for_write|intros _]. induction rs as [|r rs IH]; cbn [sinsertRows]; [li|]. repeat li. exact IH. Qed.
  Lemma li_next i rs : light (sNext i rs).
  Proof. unfold sNext. repeat li. Qed.
  Lemma li_current rs : light (sCurrent rs).
  Proof. unfold sCurrent. repeat li. Qed.
  Lemma li_close i rs : light (sClose i rs).
  Proof. unfold sClose. repeat li. Qed.
  Lemma li_delete t key : light (sDelete t key).
  Proof. unfold sDelete. apply li_bind; [apply li_for_write|intros _]. repeat li. Qed.
  Lemma li_update t key cols vals : light (sUpdate t key cols vals).
  Proof.
    unfold sUpdate. li; [li|]. li; [li|]. li; [|li]. li; [li|]. apply li_bind; [apply li_for_write|intros _]. li; [|repeat li].
    apply li_bind; [apply li_delete|intros _; apply li_insert].
  Qed.

  Lemma once_get_type tid k : once (k None) -> (forall ty, noid (k (Some ty))) -> once (sgetTableType tid k).
  Proof.
    intros K0 K1. unfold sgetTableType, sbind at 1. apply li_lift. intros it. unfold sbind at 1. apply li_read. intros t.
    destruct (t_get t it) as [it'|]; [|exact K0]. destruct (it_row it') as [|v1 [|v2 [|v3 r]]]; try constructor; destruct v2; try constructor.
    destruct (x_gob_decode s) as [wt|]; [|constructor]. unfold sbind, sret. constructor. intros ty. apply K1.
  Qed.
  Lemma once_call c : once (scall c).
  Proof.
    unfold scall. constructor. intros tx. assert (D : forall a : unit, noid (SRet ODone)) by (intros; constructor).
    assert (D' : forall a : unit, once (SRet ODone)) by (intros; constructor). destruct c.
    - unfold sOpenTable, sbind at 1. apply once_get_type; [constructor|]. intros ty. repeat (match goal with |- noid ((if ?e then _ else _) _) => destruct e; [constructor|] end). unfold sbind, sgetTx, sputTx. repeat constructor.
    - unfold sCreateTable. destruct (tid <? EngineTableId); [constructor|]. unfold sbind at 1. apply once_get_type; [|intros; constructor].
      destruct (negb _); [constructor|]. destruct primary as [p|]; [|constructor]. destruct (badRowId _ _ _ _); [constructor|]. destruct (existsb _ _); [constructor|].
      unfold sbind at 1. apply li_for_write. intros _. unfold ssetTableType, sbind at 1. constructor. intros wt. unfold sbind at 1. apply li_lift. intros it. unfold sbind. apply li_read. intros t. repeat constructor.
    - unfold sDropTable, sbind at 1. apply once_get_type; [constructor|]. intros ty. unfold sbind at 1. apply li_for_write. intros _. unfold sbind. apply li_delete_type. intros [|]; constructor.
    - unfold sCommit, sbind, sgetTx. constructor. intros tx'. destruct (negb _); [constructor|]. destruct (negb _); [constructor|]. repeat constructor.
    - unfold sRollback, sbind, sgetTx. constructor. intros tx'. destruct (negb _); [constructor|]. destruct (negb _); [constructor|]. repeat constructor.
    - constructor.
    - destruct (nth_error _ _); constructor.
    - destruct (nth_error _ _); [|constructor]. now apply li_rows.
    - destruct (nth_error _ _); [|constructor]. now apply li_insert.
    - destruct (nth_error _ _); [|constructor]. apply li_next. intros; constructor.
    - destruct (nth_error _ _); [|constructor]. now apply li_current.
    - destruct (nth_error _ _); [|constructor]. now apply li_close.
    - destruct (nth_error _ _); [|constructor]. destruct (nth_error _ _); [|constructor]. now apply li_update.
    - destruct (nth_error _ _); [|constructor]. destruct (nth_error _ _); [|constructor]. now apply li_delete.
  Qed.

  (** ** Other registrations of identifiers meanwhile *)

  Definition dead (tx : txstate) : Prop := tx_live tx = false /\ tx_tree tx = None.
  Definition mild (c : scode) : Prop :=
    match c with SGet _ | SPut _ _ | SStoreTree _ | SSetStoreTree _ | SClone _ _ | SRead _ | SWrite _ _ => True | _ => False end.

  Lemma idt_idt sh i j : sh_with_idt (sh_with_idt sh i) j = sh_with_idt sh j.
  Proof. reflexivity. Qed.
  Lemma idt_own sh : sh_with_idt sh (sh_idt sh) = sh.
  Proof. now destruct sh. Qed.
  Ltac cases H := repeat match type of H with context [match ?e with _ => _ end] => destruct e eqn:? end.

  Lemma mild_live sh tx c sh' tx' c' : mild c -> tx_live tx = true -> sact sh tx c = (sh', tx', c') ->
    tx_live tx' = true /\ sh_idt sh' = sh_idt sh /\ sh_locked sh' = sh_locked sh /\ (forall i, sact (sh_with_idt sh i) tx c = (sh_with_idt sh' i, tx', c')).
  Proof.
    intros M E H. destruct c; try contradiction; cbn [sact sh_with_idt sh_tree sh_heap sh_locked sh_idt] in H |- *; rewrite ?E in *; cases H; injection H as <- <- <-;
      cbn [tx_live sh_idt sh_locked sh_with_heap sh_with_idt tx_with_tree]; (split; [assumption || reflexivity|]); (split; [reflexivity|]); (split; [reflexivity|]); intros i; reflexivity.
  Qed.
  Lemma mild_dead tx c : mild c -> dead tx -> exists tx' c', dead tx' /\ forall sh, sact sh tx c = (sh, tx', c').
  Proof.
    intros M [E1 E2]. destruct c; try contradiction; cbn [sact]; rewrite ?E1, ?E2; try (do 2 eexists; split; [|intros; reflexivity]; now split).
  Qed.
  Lemma mild_once sh tx c sh' tx' c' : mild c -> once c -> sact sh tx c = (sh', tx', c') -> once c'.
  Proof. intros M O H. destruct O; try contradiction; cbn [sact] in H; cases H; injection H as <- <- <-; auto; constructor. Qed.
  Lemma noid_mild c : noid c -> (exists out, c = SRet out) \/ mild c.
  Proof. destruct 1; [left; eauto|right; exact Logic.I..]. Qed.
  Lemma noid_next sh tx c sh' tx' c' : noid c -> sact sh tx c = (sh', tx', c') -> noid c'.
  Proof. intros O H. destruct O; cbn [sact] in H; cases H; injection H as <- <- <-; auto; constructor. Qed.

  Lemma noid_exec c : noid c -> forall sh tx o sh2 tx2, exec c sh tx = (o, (sh2, tx2)) ->
    sh_idt sh2 = sh_idt sh /\ forall i, exec c (sh_with_idt sh i) tx = (o, (sh_with_idt sh2 i, tx2)).
  Proof.
    induction 1; intros sh tx0 o sh2 tx2 E; cbn [exec] in E |- *.
    - injection E as <- <- <-. now split.
    - exact (H0 _ _ _ _ _ _ E).
    - exact (IHnoid _ _ _ _ _ E).
    - destruct (tx_live tx0); [exact (H0 _ _ _ _ _ _ E)|]. injection E as <- <- <-. now split.
    - cbn [sh_heap sh_with_idt]. destruct (tx_live tx0); [|injection E as <- <- <-; now split]. destruct (nth_error _ _) as [t|]; [|injection E as <- <- <-; now split].
      exact (IHnoid _ _ _ _ _ E).
    - cbn [sh_heap sh_with_idt]. destruct (tx_tree tx0); [|injection E as <- <- <-; now split]. destruct (nth_error _ _) as [t|]; [|injection E as <- <- <-; now split]. exact (H0 _ _ _ _ _ _ E).
    - cbn [sh_heap sh_with_idt]. destruct (tx_tree tx0); [|injection E as <- <- <-; now split]. exact (IHnoid _ _ _ _ _ E).
  Qed.
  Lemma noid_dead c : noid c -> forall tx, dead tx -> exists o tx2, dead tx2 /\ forall sh, exec c sh tx = (o, (sh, tx2)).
  Proof.
    induction 1; intros tx0 D; pose proof D as [E1 E2]; cbn [exec]; rewrite ?E1, ?E2.
    1, 4, 5, 6, 7: do 2 eexists; split; [|intros; reflexivity]; exact D.
    - exact (H0 _ _ D).
    - apply IHnoid. now split.
  Qed.
End Race.
