(** Goroutines that use a store, in an order that is given. *)

From Verif Require Import ModelStoreRace SpecStoreRace LemmasBase LemmasStoreRace LemmasStoreLinear LemmasDemo.

#[local] Existing Instances demo_X demo_L demo_G.

Inductive demo_order : Set := DBegin (x : nat) | DCall (x : nat) (c : txcall) | DRun (x : nat) | DIntern (s : bytes) (q : bool).

(** Who cannot go on does not. *)
Definition demo_sdo (st : sstate) (a : demo_order) : sstate :=
  let sh := ss_sh st in let ths := ss_threads st in let log := ss_log st in
  match a with
  | DBegin x => match find_th ths x with Some _ => st | None => {| ss_sh := sh; ss_threads := ths ++ [(x, ThWait)]; ss_log := log ++ [EStart (Begin x)] |} end
  | DCall x c =>
      match find_th ths x with
      | Some (ThIdle tx) => {| ss_sh := sh; ss_threads := set_th ths x (ThCall tx c (scall c) false); ss_log := log ++ [EStart (Call x c)] |}
      | _ => st
      end
  | DIntern s q => {| ss_sh := sh_with_idt sh (fst (ID (sh_idt sh) s q)); ss_threads := ths; ss_log := log ++ [EStart (Intern s q); EEnd (Intern s q) ODone] |}
  | DRun x =>
      match find_th ths x with
      | Some ThWait =>
          if sh_locked sh then st
          else {| ss_sh := {| sh_heap := sh_heap sh; sh_tree := sh_tree sh; sh_locked := true; sh_idt := sh_idt sh |};
                  ss_threads := set_th ths x (ThBegin false); ss_log := log |}
      | Some (ThBegin false) => {| ss_sh := sh; ss_threads := set_th ths x (ThBegin true); ss_log := log |}
      | Some (ThBegin true) => {| ss_sh := sh; ss_threads := set_th ths x (ThIdle (newTx sh)); ss_log := log ++ [EEnd (Begin x) ODone] |}
      | Some (ThCall tx c (SRet out) b) => {| ss_sh := sh; ss_threads := set_th ths x (ThIdle tx); ss_log := log ++ [EEnd (Call x c) out] |}
      | Some (ThCall tx c code b) =>
          if Bool.eqb b (takesTime code) then
            let '(sh', tx', code') := sact sh tx code in {| ss_sh := sh'; ss_threads := set_th ths x (ThCall tx' c code' false); ss_log := log |}
          else if b then st
          else {| ss_sh := sh; ss_threads := set_th ths x (ThCall tx c code true); ss_log := log |}
      | _ => st
      end
  end.
Definition demo_store_run (l : list demo_order) : sstate :=
  fold_left demo_sdo l {| ss_sh := w_sh (newStore idt_init); ss_threads := []; ss_log := [] |}.

Lemma demo_sdo_step st a : demo_sdo st a = st \/ sstep st (demo_sdo st a).
Proof.
  destruct st as [sh ths log]. pose (Q := fun st' => st' = {| ss_sh := sh; ss_threads := ths; ss_log := log |} \/ sstep {| ss_sh := sh; ss_threads := ths; ss_log := log |} st').
  assert (ST : forall st', sstep {| ss_sh := sh; ss_threads := ths; ss_log := log |} st' -> Q st') by (intros st' K; now right).
  assert (H : Q {| ss_sh := sh; ss_threads := ths; ss_log := log |}) by now left. change (Q (demo_sdo {| ss_sh := sh; ss_threads := ths; ss_log := log |} a)).
  destruct a as [x|x c|x|s q]; cbn [demo_sdo ss_sh ss_threads ss_log].
  - destruct (find_th ths x) eqn:F; [exact H|]. apply ST. now constructor.
  - destruct (find_th ths x) as [[| |tx|]|] eqn:F; try exact H. apply ST. eapply ss_start; exact F.
  - destruct (find_th ths x) as [[|[|]|tx|tx c code b]|] eqn:F; try exact H.
    + destruct (sh_locked sh) eqn:E; [exact H|]. apply ST. now constructor.
    + apply ST. now constructor.
    + apply ST. now constructor.
    + assert (K : forall d : scode, (forall out, d <> SRet out) -> find_th ths x = Some (ThCall tx c d b) ->
        Q (if Bool.eqb b (takesTime d) then
            let '(sh', tx', code') := sact sh tx d in {| ss_sh := sh'; ss_threads := set_th ths x (ThCall tx' c code' false); ss_log := log |}
          else if b then {| ss_sh := sh; ss_threads := ths; ss_log := log |}
          else {| ss_sh := sh; ss_threads := set_th ths x (ThCall tx c d true); ss_log := log |})).
      { intros d N F'. destruct (Bool.eqb b (takesTime d)) eqn:E.
        - apply Bool.eqb_prop in E. subst b. destruct (sact sh tx d) as [[sh' tx'] code'] eqn:A. apply ST. eapply ss_act; eassumption.
        - destruct b; [exact H|]. apply ST. eapply ss_access; [exact F'|]. destruct (takesTime d); [reflexivity|discriminate]. }
      destruct code; try (apply K; [intros; discriminate|exact F]). apply ST. eapply ss_end; exact F.
  - apply ST. constructor.
Qed.
Lemma demo_sdo_reach st a : sreach idt_init st -> sreach idt_init (demo_sdo st a).
Proof. intros H. destruct (demo_sdo_step st a) as [->|S]; [exact H|]. eapply sreach_step; eassumption. Qed.
Lemma demo_store_reach l : sreach idt_init (demo_store_run l).
Proof.
  unfold demo_store_run. assert (K : forall st, sreach idt_init st -> sreach idt_init (fold_left demo_sdo l st)); [|apply K; constructor].
  induction l as [|a l IH]; intros st H; [exact H|]. apply IH. now apply demo_sdo_reach.
Qed.

(** A transaction creates a table and inserts a row while another waits; the second
    gets the mutex before [Commit] of the first has returned, and reads while the first
    goes on. *)
Definition demo_store_tn : tablename := {| tn_database := 47; tn_schema := 48; tn_table := 49 |}.
Definition demo_two : list demo_order :=
  [DIntern (str "a") true; DIntern (str "b") true; DIntern (str "c") true; DBegin 1; DRun 1; DRun 1; DRun 1; DBegin 2; DCall 1 (CCreateTable 600 demo_store_tn [47] [Int64ColType] (Some [MakeColumnKey 0 false]))] ++
  repeat (DRun 1) 25 ++ [DCall 1 (COpenTable 600 demo_store_tn [47] [Int64ColType] [MakeColumnKey 0 false])] ++ repeat (DRun 1) 12 ++
  [DRun 2; DCall 1 (CInsert 0 [[VInt 7]])] ++ repeat (DRun 1) 25 ++
  [DCall 1 CCommit] ++ repeat (DRun 1) 5.
Definition demo_two_on : list demo_order :=
  demo_two ++ repeat (DRun 2) 3 ++ [DCall 2 (COpenTable 600 demo_store_tn [47] [Int64ColType] [MakeColumnKey 0 false])] ++ repeat (DRun 2) 2.
Definition demo_two_end : list demo_order :=
  demo_two_on ++ [DIntern (str "d") true; DRun 1; DRun 2; DRun 1] ++ repeat (DRun 2) 20 ++ [DCall 1 CCommit; DRun 1; DRun 1; DRun 1].
Lemma demo_goes : let st := demo_store_run (removelast demo_two) in let st' := demo_store_run demo_two in
  exists th th', find_th (ss_threads st) 1 = Some th /\ find_th (ss_threads st') 1 = Some th' /\ goes_on th th'.
Proof.
  cbv zeta. set (st := demo_store_run (removelast demo_two)). assert (E : demo_store_run demo_two = demo_sdo st (DRun 1)) by (vm_compute; reflexivity). rewrite E. clear E.
  destruct (demo_sdo_step st (DRun 1)) as [E|S]; [apply (f_equal (fun s => sh_locked (ss_sh s))) in E; vm_compute in E; discriminate E|].
  assert (F : exists tx c k, find_th (ss_threads st) 1 = Some (ThCall tx c (SUnlock k) false)) by (do 3 eexists; vm_compute; reflexivity).
  assert (F' : exists tx c k, find_th (ss_threads (demo_sdo st (DRun 1))) 1 = Some (ThCall tx c (SNil k) false)) by (do 3 eexists; vm_compute; reflexivity).
  destruct F as (tx & c & k & F). destruct F' as (tx' & c' & k' & F'). do 2 eexists. split; [exact F|]. split; [exact F'|].
  split; [exact Logic.I|]. split; [exact Logic.I|]. split; [discriminate|]. exists st, (demo_sdo st (DRun 1)), 1%nat. auto.
Qed.
