(** Concrete tests of a storage engine. *)

From Verif Require Import SpecDriver LemmasDriver LemmasDemo LemmasDemoTestutil.

(** A new store with a transaction. *)
Definition demo_begun : shared * txstate :=
  let sh := w_sh (demo_world demo_names) in ({| sh_heap := sh_heap sh; sh_tree := sh_tree sh; sh_locked := true; sh_idt := sh_idt sh |}, newTx sh).
Definition demo_table_cases : list tcase :=
  [ TCreateTable 20 demo_cols [StringColType; Int64ColType] (Some [MakeColumnKey 1 true]) false;
    TCreateTable 20 demo_cols [StringColType; Int64ColType] (Some [MakeColumnKey 1 true]) true;
    TOpenTable 20 demo_cols [StringColType; Int64ColType] (Some [MakeColumnKey 1 true]) false;
    TTableType 20 1 demo_cols [StringColType; Int64ColType] (Some [MakeColumnKey 1 true]) ].
Definition demo_cases : list tcase :=
  demo_table_cases ++
  [ TInsert [[VString (str "a"); VInt 1]; [VString (str "b"); VInt 2]; [VString (str "c"); VInt 3]] false;
    TInsert [[VString (str "d"); VInt 2]] true;
    TSelect None None None None [[VString (str "c"); VInt 3]; [VString (str "b"); VInt 2]; [VString (str "a"); VInt 1]] false;
    TUpdateSet None None None (fun r => match r with [_; VInt i] => ([1], [VInt (i + 10)]) | _ => ([], []) end);
    TRows (Some [1]) None None None false;
    TCurrent false true;
    TNext [VInt 13] false false false;
    TCurrent false false;
    TDelete false false;
    TDelete false true;
    TNext [VInt 12] false false false;
    TNext [VInt 11] false false false;
    TNext [] false true false;
    TClose false false;
    TNext [] false false true;
    TDeleteFrom None None None;
    TSelect None None None None [] false;
    TRollback false ].
Definition demo_passes (l : list tcase) : bool :=
  match @testStorage demo_X demo_L demo_G demo_S demo_begun l with Some s => negb (ts_failed s) | None => false end.

(** A row without columns is found in an error. *)
Definition demo_empty : list tcase := demo_table_cases ++ [TRows None None None None false].
Section Empty.
  Context {X : FloatLib} {L : CaseLib} {G : GobLib} {S : SortLib}.
  Lemma last_met x h l c x' : all_met x h (l ++ [c]) x' ->
    exists y hy h', testCases (tstate_of x h) l = Some (tstate_of y hy) /\ meets y hy c x' h'.
  Proof.
    revert x h. induction l as [|d l IH]; intros x h H; simpl in H; inversion H; subst.
    - match goal with M : meets _ _ _ _ _, A : all_met _ _ [] _ |- _ => inversion A; subst; eexists _, _, _; split; [reflexivity|exact M] end.
    - match goal with M : meets _ _ _ _ _, A : all_met _ _ (l ++ [c]) _ |- _ =>
        destruct (IH _ _ A) as (y & hy & h' & E & M'); eexists _, _, _; split; [simpl; rewrite (case_backward _ _ _ _ _ M); exact E|exact M'] end.
  Qed.
  Lemma next_met y hy x' h' rs : meets y hy (TNext [] false false false) x' h' -> h_rows hy = Some rs -> exists r, fst (callStep y (CNext rs)) = ORow r.
  Proof.
    intros M E. inversion M. subst. simpl in E. injection E as ->. match goal with D : does _ _ _ _ |- _ => unfold does in D; rewrite D end.
    simpl. destruct o; simpl in *; try tauto; try discriminate; [eauto|]. intuition discriminate.
  Qed.
End Empty.

Lemma some_inj {A} {a b : A} : Some a = Some b -> a = b.
Proof. intros H. now inversion H. Qed.
Definition demo_last : tstate := match @testStorage demo_X demo_L demo_G demo_S demo_begun demo_empty with Some s => s | None => tstate_of demo_begun empty_hand end.
Lemma empty_row : ~ (forall (X : FloatLib) (L : CaseLib) (G : GobLib) (S : SortLib) x l x', test_passes x l x' -> all_met x empty_hand l x').
Proof.
  intros H. specialize (H demo_X demo_L demo_G demo_S demo_begun (demo_empty ++ [TNext [] false false false]) (ts_state demo_last)).
  assert (@test_passes demo_X demo_L demo_G demo_S demo_begun (demo_empty ++ [TNext [] false false false]) (ts_state demo_last)) as P.
  { eexists. split; [vm_compute; reflexivity|]. split; vm_compute; reflexivity. }
  specialize (H P). apply (@last_met demo_X demo_L demo_G demo_S) in H as (y & hy & h' & E & M).
  assert (@testCases demo_X demo_L demo_G demo_S (tstate_of demo_begun empty_hand) demo_empty = Some demo_last) as E' by (vm_compute; reflexivity).
  pose proof (some_inj (eq_trans (eq_sym E') E)) as E0. clear E E'. rename E0 into E.
  apply (@next_met demo_X demo_L demo_G demo_S) with (rs := O) in M as (r & M).
  - pose proof (f_equal ts_state E) as E1. cbn [tstate_of ts_state] in E1. rewrite <- E1 in M.
    assert (fst (@callStep demo_X demo_L demo_G (ts_state demo_last) (CNext 0)) = OErr EOF) as E4 by (vm_compute; reflexivity).
    rewrite E4 in M. discriminate M.
  - pose proof (f_equal ts_rows E) as E2. cbn [tstate_of ts_rows] in E2. rewrite <- E2. vm_compute. reflexivity.
Qed.
