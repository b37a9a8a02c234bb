(** Examples for property C69. *)

From Verif Require Import ModelEngine SpecAny LemmasAny LemmasDemoEngine.

(** A storage that gives the answers of a list: what a call returned, the position
    of the object, the number of rows.  Every name is [x], every identifier 300. *)
Fixpoint answered {A} (p : prog A) (l : list (outcome * nat * nat)) : option (list event * res A) :=
  match p with
  | PRet r => match l with [] => Some ([], r) | _ => None end
  | PCall c k =>
      match l with
      | [] => None
      | (o, i, n) :: l' => match answered (k o i n) l' with Some (h, r) => Some ((c, o, i) :: h, r) | None => None end
      end
  | PID s q k => answered (k 300) l
  | PName i k => answered (k (str "x")) l
  end.
Lemma answered_runs {A} (p : prog A) : forall l h r, answered p l = Some (h, r) -> runs p h r.
Proof.
  induction p as [r0|c f IH|s q f IH|i f IH]; intros l h r H; cbn [answered] in H.
  - destruct l; [|discriminate H]. injection H as <- <-. constructor.
  - destruct l as [|[[o i] n] l]; [discriminate H|]. destruct (answered _ l) as [[h1 r1]|] eqn:Ea; [|discriminate H]. injection H as <- <-. apply IH in Ea. eapply run_call. exact Ea.
  - apply IH in H. eapply run_id. exact H.
  - apply IH in H. eapply run_name. exact H.
Qed.
Lemma answered_case {A} (p : prog A) l q : answered p l = Some q -> runs p (fst q) (snd q).
Proof. destruct q as [h r]. apply answered_runs. Qed.

(** The calls, without their arguments, and what they returned. *)
Definition brief (e : event) : Z * outcome :=
  (match fst (fst e) with
   | COpenTable _ _ _ _ _ => 1 | CRows _ _ _ _ _ => 2 | CNext _ => 3 | CCurrent _ => 4 | CDelete _ => 5 | CClose _ => 6
   | CInsert _ _ => 7 | CCommit => 8 | CRollback => 9 | _ => 0
   end, snd (fst e)).
Definition briefly {A} (p : prog A) (l : list (outcome * nat * nat)) : option (list (Z * outcome) * res A) :=
  match answered p l with Some (h, r) => Some (map brief h, r) | None => None end.

(** A row set with one row; [Delete] returns [e]. *)
Definition demo_failing_delete (e : error) : list (outcome * nat * nat) :=
  [(ODone, 0%nat, 0%nat); (ODone, 7%nat, 1%nat); (ORow [VString (str "x")], 0%nat, 0%nat); (ODone, 4%nat, 0%nat); (OErr e, 0%nat, 0%nat); (ODone, 0%nat, 0%nat)].
Definition demo_eof : list event * res unit :=
  match answered (dropDatabase demo_I 300 false) (demo_failing_delete EOF) with Some q => q | None => ([], Panic) end.
Lemma demo_eof_answered : answered (dropDatabase demo_I 300 false) (demo_failing_delete EOF) = Some demo_eof.
Proof. vm_compute. reflexivity. Qed.
Lemma demo_eof_result : snd demo_eof = Ok tt.
Proof. vm_compute. reflexivity. Qed.
Lemma demo_eof_brief : map brief (fst demo_eof) = [(1, ODone); (2, ODone); (3, ORow [VString (str "x")]); (4, ODone); (5, OErr EOF); (6, ODone)].
Proof. vm_compute. reflexivity. Qed.
Lemma brief_well e : brief e = (5, OErr EOF) -> ~ went_well e.
Proof. destruct e as [[c o] i]. unfold brief. cbn [fst snd]. intros H. injection H as H1 H2. destruct c; try discriminate H1. cbn. rewrite H2. discriminate. Qed.
Theorem eof_taken : exists h, runs (dropDatabase demo_I 300 false) h (Ok tt) /\ ~ Forall went_well h.
Proof.
  exists (fst demo_eof). split.
  - rewrite <- demo_eof_result. exact (answered_case _ _ _ demo_eof_answered).
  - intros H. assert (K : In (5, OErr EOF) (map brief (fst demo_eof))) by (rewrite demo_eof_brief; cbn; tauto). apply in_map_iff in K as (e & K1 & K2). rewrite Forall_forall in H. exact (brief_well e K1 (H e K2)).
Qed.
Theorem eof_from_rows : forall (F : Float32Lib) (E : EGobLib), exists I A p own h r, engine_function I A p own /\ runs p h r /\ ~ passed_on own h r.
Proof.
  intros F E. destruct eof_taken as (h & H & K). exists demo_I, unit, (dropDatabase demo_I 300 false), (fun e => e = ErrNoDatabase /\ false = false), h, (Ok tt). split; [constructor|]. split; [exact H|exact K].
Qed.
