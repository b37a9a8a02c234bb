(** Goroutines in an order that is given. *)

From Verif Require Import ModelIdentRace SpecIdentRace LemmasBase LemmasIdent LemmasIdentRace LemmasDemo.

#[local] Existing Instance demo_L.

Definition demo_turn (t : idtable) (r : nat) (w : bool) (th : mthread) : option (idtable * nat * bool * mthread) :=
  let th' k b := {| mt_call := mt_call th; mt_code := k; mt_busy := b |} in
  if mt_busy th then
    match performed t (mt_code th) with Some (t', k) => Some (t', r, w, th' k false) | None => None end
  else
    match performed t (mt_code th) with
    | Some _ => Some (t, r, w, th' (mt_code th) true)
    | None => match mutexStep r w (mt_code th) with Some (r', w', k) => Some (t, r', w', th' k false) | None => None end
    end.
Lemma demo_turn_ok t r w th t' r' w' th' : demo_turn t r w th = Some (t', r', w', th') -> mturn (t, r, w, th) (t', r', w', th').
Proof.
  unfold demo_turn. destruct th as [c k b]; cbn [mt_busy mt_code mt_call]. destruct b.
  - destruct (performed t k) as [[t2 k']|] eqn:E; [|discriminate]. intros [= <- <- <- <-]. now constructor.
  - destruct (performed t k) as [x|] eqn:E; [intros [= <- <- <- <-]; econstructor; exact E|].
    destruct (mutexStep r w k) as [[[r2 w2] k']|] eqn:E'; [|discriminate]. intros [= <- <- <- <-]. now constructor.
Qed.

(** Calls are started ([inl]) and goroutines run ([inr]); who cannot does not. *)
Definition demo_do (st : mstate) (a : mcall + nat) : mstate :=
  match a with
  | inl c => {| ms_table := ms_table st; ms_readers := ms_readers st; ms_writer := ms_writer st;
                ms_threads := ms_threads st ++ [{| mt_call := c; mt_code := callCode c; mt_busy := false |}] |}
  | inr i =>
      match nth_error (ms_threads st) i with
      | Some th =>
          match demo_turn (ms_table st) (ms_readers st) (ms_writer st) th with
          | Some (t, r, w, th') =>
              {| ms_table := t; ms_readers := r; ms_writer := w; ms_threads := firstn i (ms_threads st) ++ th' :: skipn (S i) (ms_threads st) |}
          | None => st
          end
      | None => st
      end
  end.
Definition demo_goroutines (l : list (mcall + nat)) : mstate :=
  fold_left demo_do l {| ms_table := idt_init; ms_readers := 0; ms_writer := false; ms_threads := [] |}.
Lemma demo_do_steps st a : demo_do st a = st \/ mstep st (demo_do st a).
Proof.
  destruct a as [c|i]; cbn [demo_do].
  - right. destruct st. constructor.
  - destruct (nth_error (ms_threads st) i) as [th|] eqn:E; [|now left]. destruct (demo_turn _ _ _ th) as [[[[t r] w] th']|] eqn:D; [|now left].
    apply demo_turn_ok in D. right. destruct st as [t0 r0 w0 ths]; cbn [ms_table ms_readers ms_writer ms_threads] in *.
    apply nth_error_split in E. destruct E as (l1 & l2 & -> & <-).
    rewrite firstn_app, Nat.sub_diag, firstn_all. cbn [firstn]. rewrite app_nil_r.
    replace (skipn (S (length l1)) (l1 ++ th :: l2)) with l2; [now constructor|].
    rewrite skipn_app, skipn_all2 by lia. replace (S (length l1) - length l1)%nat with 1%nat by lia. reflexivity.
Qed.
Lemma demo_do_reach st a : mreach st -> mreach (demo_do st a).
Proof. intros H. destruct (demo_do_steps st a) as [->|K]; [exact H|]. eapply mreach_step; eassumption. Qed.
Lemma demo_goroutines_reach l : mreach (demo_goroutines l).
Proof.
  unfold demo_goroutines. assert (K : forall st, mreach st -> mreach (fold_left demo_do l st)); [|apply K; constructor].
  induction l as [|a l IH]; intros st H; [exact H|]. apply IH. now apply demo_do_reach.
Qed.

(** Two calls of ID for one name, both miss; then one creates it, the other finds
    it; and a call of String. *)
Definition demo_both : list (mcall + nat) :=
  [inl (CallID (str "x") false); inl (CallID (str "X") false)] ++ repeat (inr 0%nat) 3 ++ repeat (inr 1%nat) 4 ++ repeat (inr 0%nat) 20 ++ repeat (inr 1%nat) 20 ++
  [inl (CallString 47)].
Lemma demo_after l l' : msteps (demo_goroutines l) (demo_goroutines (l ++ l')).
Proof.
  unfold demo_goroutines. rewrite fold_left_app. set (st := fold_left demo_do l _). assert (R : mreach st) by apply (demo_goroutines_reach l).
  clearbody st. induction l' as [|a l' IH] using rev_ind; [constructor|]. rewrite fold_left_app. cbn [fold_left]. set (st' := fold_left demo_do l' st) in *. clearbody st'.
  destruct (demo_do_steps st' a) as [E|H]; [now rewrite E|]. eapply msteps_more; [exact IH|exact H].
Qed.

(** A call of ID writes the name while a call of String reads. *)
Definition demo_clash : list (mcall + nat) :=
  [inl (CallID (str "x") false)] ++ repeat (inr 0%nat) 16 ++ [inl (CallString 1); inr 1%nat].
Lemma demo_races : races (demo_goroutines demo_clash) 0 1 Names.
Proof. split; [discriminate|]. do 3 eexists. split; [vm_compute; reflexivity|]. split; [vm_compute; reflexivity|]. split; reflexivity. Qed.
