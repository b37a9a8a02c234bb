(** Histories of the small table, used in the examples. *)

From Verif Require Import ModelStore SpecTable LemmasBase LemmasKey LemmasValue LemmasIdent LemmasGob LemmasDemo.

Definition demo_hist (ops : list op) : history := combine ops (demo_outs ops).

Lemma run_length {X : FloatLib} {L : CaseLib} {G : GobLib} ops : forall w, length (fst (run w ops)) = length ops.
Proof.
  induction ops as [|o ops IH]; intros w; simpl; [reflexivity|].
  destruct (step w o) as [out w1]. specialize (IH w1). destruct (run w1 ops) as [outs w2]. simpl in *. now rewrite IH.
Qed.

Lemma combine_fst {A B} (l1 : list A) : forall l2 : list B, length l1 = length l2 -> map fst (combine l1 l2) = l1.
Proof. induction l1 as [|a l1 IH]; intros [|b l2] H; try discriminate; simpl; [reflexivity|]. f_equal. apply IH. now injection H. Qed.
Lemma combine_snd {A B} (l1 : list A) : forall l2 : list B, length l1 = length l2 -> map snd (combine l1 l2) = l2.
Proof. induction l1 as [|a l1 IH]; intros [|b l2] H; try discriminate; simpl; [reflexivity|]. f_equal. apply IH. now injection H. Qed.

Lemma demo_ran ops : @ran demo_X demo_L demo_G (demo_hist ops) (demo_world ops).
Proof.
  exists idt_init. unfold demo_hist, demo_outs, demo_world, demo_run.
  pose proof (@run_length demo_X demo_L demo_G ops (newStore idt_init)) as E.
  destruct (@run demo_X demo_L demo_G (newStore idt_init) ops) as [outs w] eqn:R. cbn [fst snd] in *.
  rewrite combine_fst, combine_snd by congruence. exact R.
Qed.

Lemma demo_fst ops : map fst (demo_hist ops) = ops.
Proof.
  unfold demo_hist. apply combine_fst. symmetry. apply run_length.
Qed.

(** Checking [op_typed]. *)
Definition u32b (z : Z) : bool := (0 <=? z) && (z <? 2 ^ 32).
Definition wfb (v : value) : bool :=
  match v with
  | VFloat p => (0 <=? p) && (p <? 2 ^ 64)
  | VInt i => (- 2 ^ 63 <=? i) && (i <? 2 ^ 63)
  | _ => true
  end.
Definition kc_of (k : list Z) : list (nat * bool) := map (fun ck => (Z.to_nat (ckColumn ck), ckReverse ck)) k.
Definition keyb (k : list Z) : bool :=
  list_eqb Z.eqb k (keys_of (kc_of k)) && forallb (fun cd => Z.of_nat (fst cd) <? 2 ^ 31 - 1) (kc_of k).
Definition typedb (o : op) : bool :=
  match o with
  | Call _ (COpenTable tid _ _ _ _) => u32b tid
  | Call _ (CDropTable tid) => u32b tid
  | Call _ (CCreateTable tid _ _ cts p) =>
      u32b tid && forallb (fun ct => u32b (ct_size ct)) cts && match p with Some k => keyb k | None => true end
  | Call _ (CInsert _ rs) => forallb (forallb wfb) rs
  | Call _ (CUpdate _ _ vals) => forallb wfb vals
  | _ => true
  end.

Lemma u32b_ok z : u32b z = true -> is_u32 z.
Proof. unfold u32b, is_u32. lia. Qed.
Lemma wfb_ok v : wfb v = true -> wf_value v.
Proof. destruct v; simpl; auto; unfold is_u64, is_i64; lia. Qed.
Lemma forallb_ok {A} (f : A -> bool) (P : A -> Prop) l : (forall a, f a = true -> P a) -> forallb f l = true -> Forall P l.
Proof. intros H. rewrite forallb_forall, Forall_forall. auto. Qed.
Lemma list_eqb_Z l1 : forall l2, list_eqb Z.eqb l1 l2 = true -> l1 = l2.
Proof.
  induction l1 as [|a l1 IH]; intros [|b l2]; simpl; try discriminate; [reflexivity|].
  rewrite andb_true_iff, Z.eqb_eq. intros [-> H]. f_equal. now apply IH.
Qed.

Lemma typedb_ok o : typedb o = true -> op_typed o.
Proof.
  destruct o as [x|x c|s q]; try exact (fun _ => I). destruct c; simpl; try exact (fun _ => I).
  - apply u32b_ok.
  - rewrite !andb_true_iff. intros [[H1 H2] H3]. split; [now apply u32b_ok|]. split.
    + eapply forallb_ok; [|exact H2]. intros a. apply u32b_ok.
    + intros k ->. apply andb_true_iff in H3 as [H3 H4]. exists (kc_of k). split.
      * eapply forallb_ok; [|exact H4]. intros a H. apply Z.ltb_lt. exact H.
      * now apply list_eqb_Z.
  - apply u32b_ok.
  - apply forallb_ok. intros r. apply forallb_ok. exact wfb_ok.
  - apply forallb_ok. exact wfb_ok.
Qed.

Lemma typed_all ops : forallb typedb ops = true -> Forall op_typed ops.
Proof. apply forallb_ok. exact typedb_ok. Qed.

Lemma demo_orderly tid ops : forallb typedb ops = true -> recreated tid (demo_hist ops) = false ->
  @orderly demo_X demo_L demo_G tid (demo_hist ops) (demo_world ops).
Proof.
  intros F R. split; [apply demo_ran|]. split; [|exact R]. rewrite demo_fst. now apply typed_all.
Qed.

(** Transaction 1 opens the table. *)
Definition demo_use (more : list op) : list op := demo_setup ++ [Begin 1; Call 1 demo_open] ++ more.
Definition demo_table : table :=
  {| tb_tid := 20;
     tb_tt := {| tt_version := 1; tt_name := demo_tn; tt_cols := demo_cols; tt_types := demo_types; tt_key := demo_key |} |}.
Definition demo_kc : list (nat * bool) := [(0%nat, false)].

Lemma demo_keyed : keyed demo_table demo_kc.
Proof. split; [repeat constructor; simpl; lia|reflexivity]. Qed.

(** Three rows in the table, in the order of the key. *)
Definition demo_sorted : list row := [[VInt 1; VString (str "one")]; [VInt 2; VNull]; [VInt 3; VString (str "three")]].
