(** Property C71: goroutines that use identifiers, interrupted anywhere,
    types/identifier.go:278-324. *)

From Verif Require Import ModelIdentRace SpecIdentRace SpecIdent LemmasIdent LemmasIdentRace LemmasDemo LemmasDemoIdentRace.

(** C71.  Two accesses to one variable at the same time, one of which writes, are
    those of a call of ID that writes the name of a new identifier and of a call of
    String. *)
Theorem C71_races : forall (L : CaseLib) st i j v, mreach st -> races st i j v ->
  v = Names /\ (exists a s q, nth_error (ms_threads st) i = Some a /\ mt_call a = CallID s q) /\
  (exists b n, nth_error (ms_threads st) j = Some b /\ mt_call b = CallString n).
Proof. exact @race_only. Qed.
Print Assumptions C71_races.

(** Such a race there is: String does not lock.  (Go ends the program if it notices
    that a map is read and written at the same time.) *)
Theorem C71_race_refuted : ~ (forall (L : CaseLib) st i j v, mreach st -> ~ races st i j v).
Proof. exact (fun H => H demo_L _ _ _ _ (demo_goroutines_reach demo_clash) demo_races). Qed.
Print Assumptions C71_race_refuted.

(** The sections under the mutex act as single steps: the calls that have returned are
    those of an execution of [idstep], which C14 to C16 are about, with the same
    variables whenever no section that writes is under way. *)
Theorem C71_atomic : forall (L : CaseLib) st, mreach st ->
  exists t ths, idreach (t, ths) /\ (forall s q i, gave st s q i <-> returned ths s q i) /\ (ms_writer st = false -> ms_table st = t).
Proof. exact @refines. Qed.
Print Assumptions C71_atomic.

(** So identifiers are equal just if the spellings mean the same, at any time, *)
Theorem C71_interning : forall (L : CaseLib) st s1 q1 i1 s2 q2 i2 m1 m2, mreach st ->
  gave st s1 q1 i1 -> gave st s2 q2 i2 -> means s1 q1 m1 -> means s2 q2 m2 -> (i1 = i2 <-> m1 = m2).
Proof. exact @fine_interning. Qed.
Print Assumptions C71_interning.

(** and the name of an identifier that a call has returned is there, also while names
    are written. *)
Theorem C71_names : forall (L : CaseLib) st s q i m, mreach st ->
  gave st s q i -> means s q m -> idString (ms_table st) i = meaning_text m.
Proof. exact @fine_names. Qed.
Print Assumptions C71_names.

(** So a call of String that starts after that gives the name, whatever goes on
    meanwhile. *)
Theorem C71_text : forall (L : CaseLib) st st' s q i m n x, mreach st ->
  gave st s q i -> means s q m -> msteps st st' ->
  (length (ms_threads st) <= n)%nat -> wrote st' n i x -> x = meaning_text m.
Proof. exact @text_of. Qed.
Print Assumptions C71_text.

(** There is no deadlock: while a call is not over, some goroutine can go on; *)
Theorem C71_no_deadlock : forall (L : CaseLib) st, mreach st -> Exists (fun th => ~ over th) (ms_threads st) ->
  exists ths1 th ths2 x, ms_threads st = ths1 ++ th :: ths2 /\ mturn (ms_table st, ms_readers st, ms_writer st, th) x.
Proof. exact @no_deadlock. Qed.
Print Assumptions C71_no_deadlock.

(** and a call has at most 20 steps: each takes one from those that are left. *)
Theorem C71_steps : forall (L : CaseLib) c, within 20 (callCode c).
Proof. exact @call_within. Qed.
Print Assumptions C71_steps.

Theorem C71_step : forall t r w th t' r' w' th' n, mturn (t, r, w, th) (t', r', w', th') ->
  within (if mt_busy th then S n else n) (mt_code th) ->
  exists n', n = S n' /\ within (if mt_busy th' then S n' else n') (mt_code th').
Proof. exact turn_within. Qed.
Print Assumptions C71_step.

(** Two goroutines miss on the same new name; one of them creates it.  Then the name is
    read, while another is created. *)
Example C71_case :
  let _ := demo_L in let st := demo_goroutines demo_both in
  let st' := demo_goroutines (demo_both ++ [inl (CallString 47); inl (CallID (str "y") false)] ++ repeat (inr 4%nat) 15 ++ [inr 3%nat; inr 3%nat]) in
  mreach st /\ gave st (str "x") false 47 /\ gave st (str "X") false 47 /\
  msteps st st' /\ length (ms_threads st) = 3%nat /\ wrote st' 3 47 (str "x") /\ ms_writer st' = true /\ Exists (fun th => ~ over th) (ms_threads st') /\
  means (str "x") false (Name (str "x")) /\ means (str "X") false (Name (str "x")).
Proof.
  cbv zeta. split; [apply demo_goroutines_reach|]. split; [exists false; vm_compute; tauto|]. split; [exists false; vm_compute; tauto|].
  split; [apply demo_after|]. split; [vm_compute; reflexivity|]. split; [exists false; vm_compute; reflexivity|]. split; [vm_compute; reflexivity|].
  split; [vm_compute; do 2 apply Exists_cons_tl; apply Exists_cons_hd; exact (fun H => H)|].
  split; apply (@means_name demo_L); vm_compute; intuition discriminate.
Qed.

(** While the writer is in its section the others wait: of three goroutines, one holds
    the mutex, and only it can go on. *)
Example C71_waits :
  let _ := demo_L in
  let st := demo_goroutines ([inl (CallID (str "x") false)] ++ repeat (inr 0%nat) 10 ++ [inl (CallID (str "y") false); inl (CallID (str "x") true); inr 1%nat; inr 2%nat]) in
  mreach st /\ ms_writer st = true /\ Exists (fun th => ~ over th) (ms_threads st) /\
  map (fun th => match demo_turn (ms_table st) (ms_readers st) (ms_writer st) th with Some _ => true | None => false end) (ms_threads st) = [true; false; false].
Proof.
  cbv zeta. split; [apply demo_goroutines_reach|]. split; [vm_compute; reflexivity|]. split; [|vm_compute; reflexivity].
  vm_compute. apply Exists_cons_hd. exact (fun H => H).
Qed.

(** The race: the call of ID is at [names[lastIdentifier] = s]. *)
Example C71_clash :
  let _ := demo_L in let st := demo_goroutines demo_clash in
  mreach st /\ races st 0 1 Names /\ map accessing (ms_threads st) = [Some (Names, true); Some (Names, false)] /\
  map mt_call (ms_threads st) = [CallID (str "x") false; CallString 1].
Proof. cbv zeta. split; [apply demo_goroutines_reach|]. split; [exact demo_races|]. split; vm_compute; reflexivity. Qed.
