(** Property C72: goroutines that use a store, interrupted anywhere,
    storage/basic/basic.go:83-474. *)

From Verif Require Import ModelStoreRace SpecStoreRace LemmasStoreRace LemmasStoreLinear LemmasStoreGoes LemmasDemo LemmasDemoStoreRace.

(** C72.  Goroutines that each use a transaction of their own never access the store's
    variable or a tree at the same time, so there are no races. *)
Theorem C72_races : forall (X : FloatLib) (L : CaseLib) (G : GobLib) t st x y a b m m', sreach t st ->
  find_th (ss_threads st) x = Some a -> find_th (ss_threads st) y = Some b ->
  accesses a = Some m -> accesses b = Some m' -> x = y.
Proof. exact @one_access. Qed.
Print Assumptions C72_races.

(** The calls act at single points in time: what the callers see is what they would see
    if each call were one step of ModelStore, taken after the call starts and before it
    returns; and so is what they leave when no call is under way. *)
Theorem C72_linear : forall (X : FloatLib) (L : CaseLib) (G : GobLib) t st, sreach t st ->
  exists E w, seen E = ss_log st /\
    run (newStore t) (map fst (acted E)) = (map snd (acted E), w) /\
    (forall k, exists ph, orderly (of_key k E) ph) /\
    (at_rest st -> w_sh w = ss_sh st /\ forall x, find_tx (w_txs w) x = idle_tx st x).
Proof. exact @linear. Qed.
Print Assumptions C72_linear.

(** A mutex that is not locked is never unlocked (Go would end the program); *)
Theorem C72_unlock : forall (X : FloatLib) (L : CaseLib) (G : GobLib) t st x th, sreach t st ->
  find_th (ss_threads st) x = Some th -> unlocks th -> sh_locked (ss_sh st) = true.
Proof. exact @unlock_locked. Qed.
Print Assumptions C72_unlock.

(** it is locked only while some transaction is open: it is not forgotten; *)
Theorem C72_held : forall (X : FloatLib) (L : CaseLib) (G : GobLib) t st, sreach t st ->
  sh_locked (ss_sh st) = true -> exists x th, find_th (ss_threads st) x = Some th /\ open_ th.
Proof. exact @locked_open. Qed.
Print Assumptions C72_held.

(** and it is held by a transaction between its calls, which keeps all others out. *)
Theorem C72_alone : forall (X : FloatLib) (L : CaseLib) (G : GobLib) t st x tx, sreach t st ->
  find_th (ss_threads st) x = Some (ThIdle tx) -> tx_live tx = true ->
  sh_locked (ss_sh st) = true /\ forall y th, find_th (ss_threads st) y = Some th -> x <> y ->
    accesses th = None /\ (forall tx', th = ThIdle tx' -> tx_live tx' = false).
Proof. exact @idle_locked. Qed.
Print Assumptions C72_alone.

(** A call that has the mutex or does not need it can always go on, whatever the
    others do; *)
Theorem C72_goes_on : forall (X : FloatLib) (L : CaseLib) (G : GobLib) t st x th, sreach t st ->
  find_th (ss_threads st) x = Some th -> in_call th ->
  exists st' th', sstep st st' /\ find_th (ss_threads st') x = Some th' /\ th' <> th /\
    (forall y, y <> x -> find_th (ss_threads st') y = find_th (ss_threads st) y).
Proof. exact @call_goes. Qed.
Print Assumptions C72_goes_on.

(** it does not go on for ever; *)
Theorem C72_ends : forall (X : FloatLib) (L : CaseLib) (G : GobLib), well_founded (fun th' th => goes_on th th').
Proof. exact @calls_end. Qed.
Print Assumptions C72_ends.

(** and a call of Begin goes on unless a transaction is open. *)
Theorem C72_waits : forall (X : FloatLib) (L : CaseLib) (G : GobLib) t st x, sreach t st ->
  find_th (ss_threads st) x = Some ThWait ->
  (exists st', sstep st st' /\ find_th (ss_threads st') x = Some (ThBegin false)) \/
  exists y th, find_th (ss_threads st) y = Some th /\ open_ th.
Proof. exact @wait_goes. Qed.
Print Assumptions C72_waits.

(** The first goroutine of C72_unlock_case goes on to release the mutex that the second
    waits for. *)
Example C72_goes_case :
  let _ := demo_X in let _ := demo_L in let _ := demo_G in
  let st := demo_store_run (removelast demo_two) in let st' := demo_store_run demo_two in
  sreach idt_init st /\ sh_locked (ss_sh st) = true /\ sh_locked (ss_sh st') = false /\ find_th (ss_threads st') 2 = Some ThWait /\
  exists th th', find_th (ss_threads st) 1 = Some th /\ find_th (ss_threads st') 1 = Some th' /\ goes_on th th'.
Proof.
  cbv zeta. split; [apply demo_store_reach|]. split; [vm_compute; reflexivity|]. split; [vm_compute; reflexivity|]. split; [vm_compute; reflexivity|].
  exact demo_goes.
Qed.

(** A method that is not interrupted is the one of ModelStore. *)
Theorem C72_method : forall (X : FloatLib) (L : CaseLib) (G : GobLib) c sh tx, exec (scall c) sh tx = callStep (sh, tx) c.
Proof. exact @exec_call. Qed.
Print Assumptions C72_method.

(** While one transaction waits for the mutex the other creates a table and inserts a
    row.  Its Commit has released the mutex and not returned when the second reads. *)
Example C72_case :
  let _ := demo_X in let _ := demo_L in let _ := demo_G in
  let st := demo_store_run demo_two_on in
  sreach idt_init st /\ sh_locked (ss_sh st) = true /\
  (exists tx c out, find_th (ss_threads st) 1 = Some (ThCall tx c (SNil (SRet out)) false) /\ tx_live tx = true) /\
  (exists tx c k, find_th (ss_threads st) 2 = Some (ThCall tx c (SRead k) true) /\ accesses (ThCall tx c (SRead k) true) = Some (TreeAt 1, false)).
Proof.
  cbv zeta. split; [apply demo_store_reach|]. split; [vm_compute; reflexivity|]. split; do 3 eexists; (split; [vm_compute; reflexivity|reflexivity]).
Qed.

(** The waiting transaction; and the one that is about to release the mutex. *)
Example C72_unlock_case :
  let _ := demo_X in let _ := demo_L in let _ := demo_G in
  let st := demo_store_run (removelast demo_two) in
  sreach idt_init st /\ find_th (ss_threads st) 2 = Some ThWait /\ exists th, find_th (ss_threads st) 1 = Some th /\ unlocks th /\ open_ th.
Proof.
  cbv zeta. split; [apply demo_store_reach|]. split; [vm_compute; reflexivity|]. eexists. split; [vm_compute; reflexivity|]. split; reflexivity.
Qed.

(** At the end no call is under way; a second Commit is an error. *)
Example C72_rest_case :
  let _ := demo_X in let _ := demo_L in let _ := demo_G in
  let st := demo_store_run demo_two_end in
  sreach idt_init st /\ at_rest st /\
  (exists tx, find_th (ss_threads st) 2 = Some (ThIdle tx) /\ tx_live tx = true) /\
  last (ss_log st) (EStart (Begin 0)) = EEnd (Call 1 CCommit) (OErr ErrTxCompleted) /\ length (ss_log st) = 24%nat.
Proof.
  cbv zeta. split; [apply demo_store_reach|]. split.
  - intros x th H.  vm_compute in H. destruct x as [|[|[|x]]]; [discriminate H|injection H as <-; eexists; reflexivity|injection H as <-; eexists; reflexivity|discriminate H].
  - split; [eexists; split; [vm_compute; reflexivity|reflexivity]|]. split; vm_compute; reflexivity.
Qed.
