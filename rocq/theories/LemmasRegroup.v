(** Grouping by precedence: there is exactly one way, and it is what the parser
    finds for what it has read from left to right. *)

From Verif Require Import ModelParser SpecExpr LemmasBase LemmasAdjust.

Definition all_tight : list expr -> Prop :=
  fix all (args : list expr) : Prop := match args with [] => True | a :: args' => tight a /\ all args' end.
Definition all_read : list expr -> Prop :=
  fix all (args : list expr) : Prop := match args with [] => True | a :: args' => read_right a /\ all args' end.

Lemma tight_sexpr nam args : tight (SExpr nam args) = all_tight args.
Proof. reflexivity. Qed.
Lemma read_sexpr nam args : read_right (SExpr nam args) = all_read args.
Proof. reflexivity. Qed.
Lemma tight_unary op x : op <> NoOp -> tight (UnaryExpr op x) = (prefix_op op /\ tight x /\ binds op <= outer x).
Proof. now destruct op. Qed.
Lemma read_unary op x : op <> NoOp -> read_right (UnaryExpr op x) = (prefix_op op /\ read_right x).
Proof. now destruct op. Qed.
Lemma edge_unary op x : op <> NoOp -> edge (UnaryExpr op x) = Z.min (binds op) (edge x).
Proof. now destruct op. Qed.
Lemma words_unary op x : op <> NoOp -> words (UnaryExpr op x) = [WOp op] ++ words x.
Proof. now destruct op. Qed.
Lemma prefix_noop op : prefix_op op -> op <> NoOp.
Proof. now destruct op. Qed.
Lemma noop_dec (op : sqlop) : op = NoOp \/ op <> NoOp.
Proof. destruct op; (now left) || (right; discriminate). Qed.
Lemma prefix_infix p op : prefix_op p -> infix_op op -> binds op <= binds p -> binds op < binds p.
Proof. destruct p; try contradiction; destruct op; try contradiction; cbn; lia. Qed.
Lemma binds_max op : binds op < 12.
Proof. destruct op; cbn; lia. Qed.

(** Every expression by induction, with the arguments of calls. *)
Lemma expr_ind_size (P : expr -> Prop) : (forall e, (forall e', (expr_size e' < expr_size e)%nat -> P e') -> P e) -> forall e, P e.
Proof.
  intros H e. assert (G : forall n e, (expr_size e < n)%nat -> P e).
  { induction n as [|n IH]; intros e0 Hn; [lia|]. apply H. intros e' He. apply IH. lia. }
  apply (G (S (expr_size e))). lia.
Qed.

Fixpoint tight_grouped e : tight e -> grouped e.
Proof.
  destruct e as [v|ids|nam args|op x|op l r|op eop e0 s]; intros H; try exact Logic.I.
  - change (all_grouped args). change (all_tight args) in H. induction args as [|a args IH]; [exact Logic.I|]. destruct H as [H1 H2]. split; [now apply tight_grouped|now apply IH].
  - destruct op; cbn in H |- *; try (destruct H as (? & ? & ?); split; [now apply tight_grouped|assumption]). now apply tight_grouped.
  - cbn in H |- *. destruct H as (? & ? & ? & ? & ? & ?). repeat split; try assumption; now apply tight_grouped.
Qed.

(** An operand and an operator in front of a grouped expression. *)
Fixpoint put (op : sqlop) (l r : expr) : expr :=
  match r with
  | BinaryExpr rop a b => if binds rop <=? binds op then BinaryExpr rop (put op l a) b else BinaryExpr op l r
  | _ => BinaryExpr op l r
  end.
(** A prefix operator in front of one. *)
Fixpoint pre (op : sqlop) (x : expr) : expr :=
  match x with
  | BinaryExpr bop a b => if binds bop <? binds op then BinaryExpr bop (pre op a) b else UnaryExpr op x
  | _ => UnaryExpr op x
  end.

Fixpoint norm (e : expr) : expr :=
  match e with
  | UnaryExpr NoOp x => UnaryExpr NoOp (norm x)
  | UnaryExpr op x => pre op (norm x)
  | BinaryExpr op l r => put op (norm l) (norm r)
  | SExpr nam args => SExpr nam (map norm args)
  | _ => e
  end.
Lemma norm_unary op x : op <> NoOp -> norm (UnaryExpr op x) = pre op (norm x).
Proof. now destruct op. Qed.

Lemma put_eq op l r : put op l r =
  match r with
  | BinaryExpr rop a b => if binds rop <=? binds op then BinaryExpr rop (put op l a) b else BinaryExpr op l r
  | _ => BinaryExpr op l r
  end.
Proof. now destruct r. Qed.
Lemma put_over op l r : binds op < outer r -> put op l r = BinaryExpr op l r.
Proof. intros H. rewrite put_eq. destruct r; try reflexivity. cbn [outer] in H. now replace (binds op0 <=? binds op) with false by (symmetry; apply Z.leb_gt; lia). Qed.
Lemma put_under op l rop a b : binds rop <= binds op -> put op l (BinaryExpr rop a b) = BinaryExpr rop (put op l a) b.
Proof. intros H. cbn [put]. now replace (binds rop <=? binds op) with true by (symmetry; apply Z.leb_le; lia). Qed.
Lemma pre_over op x : binds op <= outer x -> pre op x = UnaryExpr op x.
Proof. intros H. destruct x; try reflexivity. cbn [outer pre] in *. now replace (binds op0 <? binds op) with false by (symmetry; apply Z.ltb_ge; lia). Qed.
Lemma pre_under op bop a b : binds bop < binds op -> pre op (BinaryExpr bop a b) = BinaryExpr bop (pre op a) b.
Proof. intros H. cbn [pre]. now replace (binds bop <? binds op) with true by (symmetry; apply Z.ltb_lt; lia). Qed.

Lemma put_size op l r : expr_size (put op l r) = S (expr_size l + expr_size r).
Proof.
  induction r; rewrite put_eq; try reflexivity. destruct (binds op0 <=? binds op); [|reflexivity]. cbn [expr_size]. rewrite IHr1. lia.
Qed.
Lemma pre_size op x : expr_size (pre op x) = S (expr_size x).
Proof. induction x; cbn [pre expr_size]; try reflexivity. destruct (binds op0 <? binds op); [|reflexivity]. cbn [expr_size]. rewrite IHx1. lia. Qed.

Lemma put_outer op l r : Z.min (binds op) (outer r) <= outer (put op l r).
Proof. rewrite put_eq. destruct r; cbn [outer]; try lia. destruct (binds op0 <=? binds op) eqn:E; cbn [outer]; lia. Qed.
Lemma put_outer_max op l r : outer (put op l r) <= binds op.
Proof. rewrite put_eq. destruct r; cbn [outer]; try lia. destruct (binds op0 <=? binds op) eqn:E; cbn [outer]; lia. Qed.
Lemma pre_outer op x : outer x <= outer (pre op x).
Proof. destruct x; cbn [outer pre]; try lia. destruct (binds op0 <? binds op); [cbn [outer]; lia|]. pose proof (binds_max op0). cbn [outer]. lia. Qed.

Lemma put_words op l r : words (put op l r) = words l ++ [WOp op] ++ words r.
Proof.
  induction r; rewrite put_eq; try reflexivity. destruct (binds op0 <=? binds op); [|reflexivity]. cbn [words]. rewrite IHr1, <- !app_assoc. reflexivity.
Qed.
Lemma pre_words op x : op <> NoOp -> words (pre op x) = [WOp op] ++ words x.
Proof.
  intros N. induction x; cbn [pre]; try (now apply words_unary). destruct (binds op0 <? binds op); [|now apply words_unary]. cbn [words]. now rewrite IHx1.
Qed.

Lemma put_edge op l r : edge (put op l r) = edge r.
Proof. induction r; rewrite put_eq; try reflexivity. destruct (binds op0 <=? binds op); reflexivity. Qed.
Lemma pre_edge op x : op <> NoOp -> Z.min (binds op) (edge x) <= edge (pre op x).
Proof.
  intros N. assert (H : edge (UnaryExpr op x) = Z.min (binds op) (edge x)) by (now apply edge_unary).
  destruct x; cbn [pre]; try (rewrite H; lia). destruct (binds op0 <? binds op); [|rewrite H; lia].
  change (edge (BinaryExpr op0 (pre op x1) x2)) with (edge x2). change (edge (BinaryExpr op0 x1 x2)) with (edge x2). lia.
Qed.

(** They stay tight. *)
Lemma single_edge l : single l -> edge l = 12.
Proof. destruct l; try reflexivity; [|contradiction]. cbn. destruct op; try contradiction. reflexivity. Qed.
Lemma single_outer l : single l -> outer l = 12.
Proof. destruct l; try reflexivity; contradiction. Qed.

Lemma put_tight op l r : infix_op op -> single l -> tight l -> tight r -> tight (put op l r).
Proof.
  intros I S Tl. pose proof (single_edge l S) as El. pose proof (single_outer l S) as Ol. pose proof (binds_max op).
  induction r; intros Tr; rewrite put_eq; try (cbn [tight]; rewrite El, Ol; repeat split; try assumption; try (cbn [outer]; lia); exact Tr).
  destruct (Z.leb_spec (binds op0) (binds op)) as [B|B].
  - cbn [tight] in Tr |- *. destruct Tr as (I0 & T1 & T2 & B1 & B2 & B3). repeat split; try assumption; [now apply IHr1| |rewrite put_edge; exact B3].
    pose proof (put_outer op l r1). lia.
  - cbn [tight]. rewrite El, Ol. repeat split; try assumption; try lia; try exact Tr; apply Tr.
Qed.
Lemma pre_tight op x : prefix_op op -> tight x -> tight (pre op x).
Proof.
  intros P. pose proof (prefix_noop op P) as N. induction x; intros T; cbn [pre]; try (rewrite tight_unary by exact N; split; [exact P|split; [exact T|cbn [outer]; pose proof (binds_max op); lia]]).
  destruct (Z.ltb_spec (binds op0) (binds op)) as [B|B].
  - cbn [tight] in T |- *. destruct T as (I0 & T1 & T2 & B1 & B2 & B3). repeat split; try assumption; [now apply IHx1| |].
    + pose proof (pre_outer op x1). lia.
    + pose proof (pre_edge op x1 N). lia.
  - rewrite tight_unary by exact N. split; [exact P|split; [exact T|exact B]].
Qed.

Lemma norm_args (Q : expr -> Prop) args : (forall a, In a args -> Q a) <-> (fix all (args : list expr) : Prop := match args with [] => True | a :: args' => Q a /\ all args' end) args.
Proof.
  induction args as [|a args IH]; [split; [constructor|contradiction]|]. split.
  - intros H. split; [apply H; now left|]. apply IH. intros; apply H; now right.
  - intros [H1 H2] x [<-|Hx]; [exact H1|]. now apply IH.
Qed.
Lemma args_size a args : In a args -> (expr_size a <= sizes args)%nat.
Proof. induction args as [|b args IH]; [contradiction|]. intros [->|H]; cbn [sizes]; fold sizes; [lia|]. specialize (IH H). lia. Qed.

Lemma norm_size e : expr_size (norm e) = expr_size e.
Proof.
  induction e as [e IH] using expr_ind_size. destruct e as [v|ids|nam args|op x|op l r|op eop e0 s]; try reflexivity.
  - cbn [norm]. rewrite !size_sexpr in *. f_equal. assert (H : forall a, In a args -> expr_size (norm a) = expr_size a) by (intros a Ha; apply IH; pose proof (args_size a args Ha); lia).
    clear IH. induction args as [|a args IHa]; [reflexivity|]. cbn [map sizes]. fold sizes. rewrite H by (now left). f_equal. apply IHa. intros; apply H; now right.
  - destruct (noop_dec op) as [->|N]; [cbn [norm expr_size]; f_equal; apply IH; cbn; lia|]. rewrite norm_unary by exact N. rewrite pre_size. cbn [expr_size]. f_equal. apply IH. cbn; lia.
  - cbn [norm]. rewrite put_size. cbn [expr_size]. rewrite !IH by (cbn; lia). reflexivity.
Qed.

Lemma norm_single e : single e -> single (norm e).
Proof. destruct e; try exact (fun H => H); [|contradiction]. cbn. destruct op; try contradiction; exact (fun H => H). Qed.

Lemma norm_tight e : read_right e -> tight (norm e).
Proof.
  induction e as [e IH] using expr_ind_size. destruct e as [v|ids|nam args|op x|op l r|op eop e0 s]; intros R; try exact Logic.I.
  - cbn [norm]. rewrite tight_sexpr. rewrite read_sexpr in R. rewrite size_sexpr in IH. apply (norm_args tight). intros a Ha. apply in_map_iff in Ha. destruct Ha as (b & <- & Hb).
    apply IH; [pose proof (args_size b args Hb); lia|]. exact (proj2 (norm_args read_right args) R b Hb).
  - destruct (noop_dec op) as [->|N]; [cbn [norm tight]; apply IH; [cbn; lia|exact R]|]. rewrite norm_unary by exact N. rewrite read_unary in R by exact N. destruct R as [P R].
    apply pre_tight; [exact P|]. apply IH; [cbn; lia|exact R].
  - cbn [norm]. cbn [read_right] in R. destruct R as (I & S & Rl & Rr). apply put_tight; [exact I|now apply norm_single|apply IH; [cbn; lia|exact Rl]|apply IH; [cbn; lia|exact Rr]].
Qed.

Lemma norm_words e : words (norm e) = words e.
Proof.
  induction e as [e IH] using expr_ind_size. destruct e as [v|ids|nam args|op x|op l r|op eop e0 s]; try reflexivity.
  - cbn [norm]. rewrite !words_sexpr. rewrite size_sexpr in IH. do 2 f_equal. assert (H : forall a, In a args -> words (norm a) = words a) by (intros a Ha; apply IH; pose proof (args_size a args Ha); lia).
    clear IH. induction args as [|a args IHa]; [reflexivity|]. cbn [map all_words]. fold all_words. rewrite H by (now left). do 2 f_equal. apply IHa. intros; apply H; now right.
  - destruct (noop_dec op) as [->|N]; [cbn [norm words]; now rewrite IH by (cbn; lia)|]. rewrite norm_unary, words_unary, pre_words by exact N. now rewrite IH by (cbn; lia).
  - cbn [norm]. rewrite put_words. cbn [words]. now rewrite !IH by (cbn; lia).
Qed.

(** The parser finds it. *)
Lemma adjust_put op l : single l -> grouped l -> forall r n, grouped r -> (3 * (expr_size l + expr_size r) <= n)%nat -> adjustPrecedence n (BinaryExpr op l r) = Some (put op l r).
Proof.
  intros S G. assert (K : forall k r n, (expr_size r <= k)%nat -> grouped r -> (3 * (expr_size l + expr_size r) <= n)%nat -> adjustPrecedence n (BinaryExpr op l r) = Some (put op l r)).
  { induction k as [|k IH]; intros r n Hk Gr Hn; [pose proof (size_pos r); lia|]. pose proof (size_pos l). pose proof (size_pos r). destruct n as [|n]; [lia|].
    rewrite (adjust_binary n op l r l r) by (apply adjust_grouped; [assumption|lia]). pose proof (single_outer l S) as Ol. pose proof (binds_max op).
    destruct (Z_lt_le_dec (binds op) (outer r)) as [B|B]; [rewrite put_over by exact B; apply binary_stays; lia|].
    destruct (outer_bin r) as [(rop & a & b & ->)|(E & _)]; [|lia]. cbn [outer] in B. rewrite put_under by exact B. unfold binary_step. cbv zeta.
    replace (opPrecedence rop <=? opPrecedence op) with true by (symmetry; apply Z.leb_le; rewrite <- !binds_prec; exact B).
    cbn [grouped] in Gr. destruct Gr as (Ga & Gb & Ha & Hb). cbn [expr_size] in *. pose proof (size_pos a). pose proof (size_pos b). destruct n as [|n]; [lia|].
    rewrite (adjust_binary n rop (BinaryExpr op l a) b (put op l a) b); [|apply IH; [lia|assumption|lia]|apply adjust_grouped; [assumption|lia]].
    apply binary_stays; [pose proof (put_outer op l a); lia|exact Hb]. }
  intros r n. now apply (K (expr_size r)).
Qed.
Lemma adjust_pre op : op <> NoOp -> forall x n, grouped x -> (3 * S (expr_size x) <= n)%nat -> adjustPrecedence n (UnaryExpr op x) = Some (pre op x).
Proof.
  intros N. assert (K : forall k x n, (expr_size x <= k)%nat -> grouped x -> (3 * S (expr_size x) <= n)%nat -> adjustPrecedence n (UnaryExpr op x) = Some (pre op x)).
  { induction k as [|k IH]; intros x n Hk G Hn; [pose proof (size_pos x); lia|]. pose proof (size_pos x). destruct n as [|n]; [lia|].
    rewrite (adjust_unary n op x x) by (apply adjust_grouped; [assumption|lia]). destruct (Z_le_gt_dec (binds op) (outer x)) as [B|B]; [rewrite pre_over by exact B; apply unary_stays; now right|].
    pose proof (binds_max op). destruct (outer_bin x) as [(bop & l & r & ->)|(E & _)]; [|lia]. cbn [outer] in B. rewrite pre_under by lia.
    cbn [grouped] in G. destruct G as (Gl & Gr & Hl & Hr). cbn [expr_size] in *. pose proof (size_pos l). pose proof (size_pos r). destruct n as [|n]; [lia|].
    transitivity (adjustPrecedence (S n) (BinaryExpr bop (UnaryExpr op l) r)).
    - unfold unary_step. replace (opPrecedence bop <? opPrecedence op) with true by (symmetry; apply Z.ltb_lt; rewrite <- (binds_prec bop), <- (binds_prec op); apply Z.gt_lt; exact B). now destruct op.
    - rewrite (adjust_binary n bop (UnaryExpr op l) r (pre op l) r); [|apply IH; [lia|assumption|lia]|apply adjust_grouped; [assumption|lia]].
      apply binary_stays; [pose proof (pre_outer op l); lia|exact Hr]. }
  intros x n. now apply (K (expr_size x)).
Qed.

Lemma adjust_norm e : read_right e -> forall n, (4 * expr_size e <= n)%nat -> adjustPrecedence n e = Some (norm e).
Proof.
  induction e as [e IH] using expr_ind_size. intros R n Hn. destruct n as [|n]; [pose proof (size_pos e); lia|]. destruct e as [v|ids|nam args|op x|op l r|op eop e0 s]; try reflexivity.
  - rewrite adjust_sexpr. cbn [norm]. rewrite size_sexpr in IH, Hn. rewrite read_sexpr in R.
    enough (E : adjustArgs n args = Some (map norm args)) by now rewrite E.
    assert (H : forall a, In a args -> adjustPrecedence n a = Some (norm a)).
    { intros a Ha. pose proof (args_size a args Ha). apply IH; [lia| |lia]. exact (proj2 (norm_args read_right args) R a Ha). }
    clear R IH Hn. induction args as [|a args IHa]; [reflexivity|]. cbn [adjustArgs map]. fold (adjustArgs n). rewrite H by (now left). rewrite IHa by (intros; apply H; now right). reflexivity.
  - cbn [expr_size] in Hn. destruct (noop_dec op) as [->|N].
    + cbn [norm]. now rewrite (adjust_unary n NoOp x (norm x)) by (apply IH; [cbn; lia|exact R|lia]).
    + rewrite read_unary in R by exact N. destruct R as [P R]. rewrite norm_unary by exact N. pose proof (tight_grouped _ (norm_tight x R)) as G. pose proof (norm_size x) as Sx.
      rewrite <- (adjust_pre op N (norm x) (S n) G) by lia.
      rewrite (adjust_unary n op x (norm x)) by (apply IH; [cbn; lia|exact R|lia]). rewrite (adjust_unary n op (norm x) (norm x)) by (apply adjust_grouped; [exact G|lia]). reflexivity.
  - cbn [expr_size] in Hn. cbn [read_right] in R. destruct R as (I & S & Rl & Rr). cbn [norm].
    pose proof (tight_grouped _ (norm_tight l Rl)) as Gl. pose proof (tight_grouped _ (norm_tight r Rr)) as Gr. pose proof (norm_size l) as Sl. pose proof (norm_size r) as Sr.
    rewrite <- (adjust_put op (norm l) (norm_single l S) Gl (norm r) (Datatypes.S n) Gr) by lia.
    rewrite (adjust_binary n op l r (norm l) (norm r)) by (apply IH; [cbn; lia|assumption|lia]).
    rewrite (adjust_binary n op (norm l) (norm r) (norm l) (norm r)) by (apply adjust_grouped; [assumption|lia]). reflexivity.
Qed.

(** From a tight expression back to what is read from left to right. *)
Fixpoint behind (e : expr) (op : sqlop) (r : expr) : expr :=
  match e with
  | UnaryExpr NoOp _ => BinaryExpr op e r
  | UnaryExpr p x => UnaryExpr p (behind x op r)
  | BinaryExpr o a c => BinaryExpr o a (behind c op r)
  | _ => BinaryExpr op e r
  end.
Fixpoint unroll (e : expr) : expr :=
  match e with
  | UnaryExpr op x => UnaryExpr op (unroll x)
  | BinaryExpr op l r => behind (unroll l) op (unroll r)
  | SExpr nam args => SExpr nam (map unroll args)
  | _ => e
  end.
Lemma behind_unary p x op r : p <> NoOp -> behind (UnaryExpr p x) op r = UnaryExpr p (behind x op r).
Proof. now destruct p. Qed.
Lemma behind_single e op r : single e -> behind e op r = BinaryExpr op e r.
Proof. destruct e; try reflexivity; [|contradiction]. cbn. destruct op0; try contradiction. reflexivity. Qed.
Lemma behind_assoc e op r op2 r2 : behind (behind e op r) op2 r2 = behind e op (behind r op2 r2).
Proof.
  induction e; try reflexivity.
  - destruct (noop_dec op0) as [->|N]; [reflexivity|]. rewrite !behind_unary by exact N. now rewrite IHe.
  - cbn [behind]. now rewrite IHe2.
Qed.
Lemma behind_words e op r : words (behind e op r) = words e ++ [WOp op] ++ words r.
Proof.
  induction e; try reflexivity.
  - destruct (noop_dec op0) as [->|N]; [reflexivity|]. rewrite behind_unary, !words_unary by exact N. rewrite IHe. reflexivity.
  - cbn [behind words]. rewrite IHe2. now rewrite <- !app_assoc.
Qed.
Lemma behind_read e op r : infix_op op -> read_right e -> read_right r -> read_right (behind e op r).
Proof.
  intros I R Rr. induction e; try (cbn; repeat split; assumption).
  - destruct (noop_dec op0) as [->|N]; [cbn; repeat split; assumption|]. rewrite behind_unary by exact N. rewrite read_unary in * by exact N. destruct R. split; [assumption|now apply IHe].
  - cbn [behind]. cbn [read_right] in *. destruct R as (? & ? & ? & ?). repeat split; try assumption. now apply IHe2.
Qed.

Lemma unroll_words e : words (unroll e) = words e.
Proof.
  induction e as [e IH] using expr_ind_size. destruct e as [v|ids|nam args|op x|op l r|op eop e0 s]; try reflexivity.
  - cbn [unroll]. rewrite !words_sexpr. rewrite size_sexpr in IH. do 2 f_equal. assert (H : forall a, In a args -> words (unroll a) = words a) by (intros a Ha; apply IH; pose proof (args_size a args Ha); lia).
    clear IH. induction args as [|a args IHa]; [reflexivity|]. cbn [map all_words]. fold all_words. rewrite H by (now left). do 2 f_equal. apply IHa. intros; apply H; now right.
  - destruct (noop_dec op) as [->|N]; [cbn [unroll words]; now rewrite IH by (cbn; lia)|]. cbn [unroll]. rewrite !words_unary by exact N. now rewrite IH by (cbn; lia).
  - cbn [unroll]. rewrite behind_words. cbn [words]. now rewrite !IH by (cbn; lia).
Qed.
Lemma unroll_read e : tight e -> read_right (unroll e).
Proof.
  induction e as [e IH] using expr_ind_size. destruct e as [v|ids|nam args|op x|op l r|op eop e0 s]; intros T; try exact Logic.I.
  - cbn [unroll]. rewrite read_sexpr. rewrite tight_sexpr in T. rewrite size_sexpr in IH. apply (norm_args read_right). intros a Ha. apply in_map_iff in Ha. destruct Ha as (b & <- & Hb).
    apply IH; [pose proof (args_size b args Hb); lia|]. exact (proj2 (norm_args tight args) T b Hb).
  - cbn [unroll]. destruct (noop_dec op) as [->|N]; [cbn; apply IH; [cbn; lia|exact T]|]. rewrite tight_unary in T by exact N. destruct T as (P & T & _).
    rewrite read_unary by exact N. split; [exact P|]. apply IH; [cbn; lia|exact T].
  - cbn [unroll]. cbn [tight] in T. destruct T as (I & Tl & Tr & _). apply behind_read; [exact I|apply IH; [cbn; lia|exact Tl]|apply IH; [cbn; lia|exact Tr]].
Qed.

Lemma pre_put p x op r : prefix_op p -> infix_op op -> binds op <= binds p -> binds p <= outer x ->
  pre p (put op x r) = put op (UnaryExpr p x) r.
Proof.
  intros P I B Bx. pose proof (prefix_infix p op P I B) as B'.
  assert (Stop : pre p (BinaryExpr op x r) = BinaryExpr op (UnaryExpr p x) r) by (rewrite pre_under by exact B'; now rewrite pre_over).
  induction r; try exact Stop. rewrite !(put_eq _ _ (BinaryExpr _ _ _)).
  destruct (Z.leb_spec (binds op0) (binds op)) as [B0|B0]; [|exact Stop]. rewrite pre_under by lia. f_equal. apply IHr1. rewrite pre_under by exact B'. now rewrite pre_over.
Qed.
Lemma put_put a b op lop r : binds lop <= binds op -> binds op < outer b ->
  put op a (put lop b r) = put lop (BinaryExpr op a b) r.
Proof.
  intros B Bb. assert (Stop : forall r, put op a (BinaryExpr lop b r) = BinaryExpr lop (BinaryExpr op a b) r) by (intros; rewrite put_under by exact B; now rewrite put_over).
  induction r; try apply Stop. rewrite !(put_eq lop _ (BinaryExpr _ _ _)).
  destruct (Z.leb_spec (binds op0) (binds lop)) as [B0|B0]; [|apply Stop]. rewrite put_under by lia. now rewrite IHr1.
Qed.

Lemma norm_behind e : tight e -> (forall e', (expr_size e' <= expr_size e)%nat -> tight e' -> norm (unroll e') = e') ->
  forall op r, infix_op op -> binds op <= outer e -> binds op <= edge e -> norm (behind (unroll e) op r) = put op e (norm r).
Proof.
  induction e as [e IH] using expr_ind_size. intros T U op r I Bo Be.
  assert (Sg : single e -> norm (behind (unroll e) op r) = put op e (norm r)).
  { intros S. assert (S2 : single (unroll e)) by (destruct e; try exact S; contradiction). rewrite behind_single by exact S2. cbn [norm]. now rewrite U by (try exact T; lia). }
  destruct e as [v|ids|nam args|p x|o a b|sop eop e0 s]; try (now apply Sg).
  - destruct (noop_dec p) as [->|N]; [now apply Sg|]. clear Sg. rewrite tight_unary in T by exact N. destruct T as (P & T & B). rewrite edge_unary in Be by exact N.
    cbn [unroll]. rewrite behind_unary, norm_unary by exact N. rewrite IH; [apply pre_put; try assumption; lia|cbn; lia|exact T| |exact I|lia|lia].
    intros e' He. apply U. cbn; lia.
  - clear Sg. cbn [tight] in T. destruct T as (Io & Ta & Tb & Ba & Bb & Ea). cbn [outer edge] in Bo, Be. cbn [unroll]. rewrite behind_assoc.
    rewrite (IH a); [|cbn; lia|exact Ta| |exact Io|exact Ba|exact Ea]; [|intros e' He; apply U; cbn; lia].
    rewrite (IH b); [|cbn; lia|exact Tb| |exact I|lia|exact Be]; [|intros e' He; apply U; cbn; lia].
    now apply put_put.
Qed.

Lemma norm_unroll e : tight e -> norm (unroll e) = e.
Proof.
  induction e as [e IH] using expr_ind_size. intros T. destruct e as [v|ids|nam args|op x|op l r|op eop e0 s]; try reflexivity.
  - cbn [unroll norm]. rewrite size_sexpr in IH. rewrite tight_sexpr in T. f_equal. rewrite map_map. transitivity (map (fun x => x) args); [|apply map_id]. apply map_ext_in. intros a Ha.
    apply IH; [pose proof (args_size a args Ha); lia|]. exact (proj2 (norm_args tight args) T a Ha).
  - cbn [unroll]. destruct (noop_dec op) as [->|N]; [cbn [norm]; now rewrite IH by (try exact T; cbn; lia)|]. rewrite tight_unary in T by exact N. destruct T as (P & T & B).
    rewrite norm_unary by exact N. rewrite IH by (try exact T; cbn; lia). now apply pre_over.
  - cbn [tight] in T. destruct T as (I & Tl & Tr & Bl & Br & El). cbn [unroll]. rewrite norm_behind; [|exact Tl| |exact I|exact Bl|exact El].
    + rewrite IH by (try exact Tr; cbn; lia). now apply put_over.
    + intros e' He T'. apply IH; [cbn; lia|exact T'].
Qed.

(** What was read from left to right is told by its words. *)
Definition no_op_first (k : list word) : Prop := match k with WOp _ :: _ => False | _ => True end.
Lemma read_single_words e k : single e -> exists w ws, words e ++ k = w :: ws /\ forall op, w <> WOp op.
Proof. destruct e; intros S; try (eexists _, _; split; [reflexivity|discriminate]); [|contradiction]. destruct op; try contradiction. eexists _, _. split; [reflexivity|discriminate]. Qed.
Definition starts_operand (w : word) : Prop := match w with WAtom _ | WCall _ | WOpen | WOp _ => True | _ => False end.
Lemma read_words_start e : read_right e -> exists w ws, words e = w :: ws /\ starts_operand w.
Proof.
  induction e as [e IH] using expr_ind_size. destruct e as [v|ids|nam args|op x|op l r|op eop e0 s]; intros R; try (eexists _, _; split; [reflexivity|exact Logic.I]).
  - destruct (noop_dec op) as [->|N]; [eexists _, _; split; [reflexivity|exact Logic.I]|]. rewrite words_unary by exact N. eexists _, _. split; [reflexivity|exact Logic.I].
  - cbn [read_right] in R. destruct R as (_ & _ & R & _). destruct (IH l) as (w & ws & E & H); [cbn; lia|exact R|]. cbn [words]. rewrite E. eexists _, _. split; [reflexivity|exact H].
Qed.

Lemma read_kinds e : read_right e -> single e \/ (exists p x, e = UnaryExpr p x /\ prefix_op p /\ read_right x) \/ (exists op l r, e = BinaryExpr op l r /\ single l /\ read_right l /\ read_right r).
Proof.
  intros R. destruct e as [v|ids|nam args|op x|op l r|op eop e0 s]; try (left; exact Logic.I).
  - destruct (noop_dec op) as [->|N]; [now left|]. right; left. rewrite read_unary in R by exact N. now exists op, x.
  - right; right. cbn in R. exists op, l, r. tauto.
Qed.

Lemma read_inj : forall e1, read_right e1 ->
  (forall e2 k1 k2, read_right e2 -> single e1 -> single e2 -> words e1 ++ k1 = words e2 ++ k2 -> e1 = e2 /\ k1 = k2) /\
  (forall e2 k1 k2, read_right e2 -> no_op_first k1 -> no_op_first k2 -> words e1 ++ k1 = words e2 ++ k2 -> e1 = e2 /\ k1 = k2).
Proof.
  induction e1 as [e1 IH] using expr_ind_size. intros R1.
  assert (A : forall e2 k1 k2, read_right e2 -> single e1 -> single e2 -> words e1 ++ k1 = words e2 ++ k2 -> e1 = e2 /\ k1 = k2).
  { intros e2 k1 k2 R2 S1 S2 E. destruct e1 as [v1|ids1|nam1 args1|op1 x1|op1 l1 r1|op1 eop1 e01 s1]; [| | | |contradiction|];
    (destruct e2 as [v2|ids2|nam2 args2|op2 x2|op2 l2 r2|op2 eop2 e02 s2]; [| | | |contradiction|]);
    lazymatch goal with
    | _ : read_right (UnaryExpr _ _), _ : read_right (UnaryExpr _ _) |- _ => cbn in S1, S2; destruct op1; try contradiction; destruct op2; try contradiction
    | _ : read_right (UnaryExpr ?op _) |- _ => cbn in S1, S2; destruct op; try contradiction
    | _ => idtac
    end;
    lazymatch goal with
    | _ : read_right (SExpr _ _), _ : read_right (SExpr _ _) |- _ => idtac
    | _ : read_right (UnaryExpr _ _), _ : read_right (UnaryExpr _ _) |- _ => idtac
    | _ => cbn [words app] in E; try discriminate E; injection E; intros; subst; now split
    end.
    - rewrite !words_sexpr in E. cbn [app] in E. injection E as -> E. change (all_read args1) in R1. change (all_read args2) in R2.
      rewrite <- !app_assoc in E. rewrite size_sexpr in IH. cut (args1 = args2 /\ k1 = k2); [intros [-> ->]; now split|]. clear S1 S2.
      assert (IHa : forall a, In a args1 -> (expr_size a < S (sizes args1))%nat) by (intros a Ha; pose proof (args_size a args1 Ha); lia).
      revert args2 R2 E. generalize dependent (S (sizes args1)). intros n IH IHa.
      induction args1 as [|a args1 IHl]; intros args2 R2 E.
      + destruct args2 as [|b args2]; [injection E as <-; now split|]. destruct R2 as [R2 _]. destruct (read_words_start b R2) as (w & ws & Ew & Hw). cbn [all_words app] in E. rewrite Ew in E.
        cbn [app] in E. injection E as <- _. contradiction.
      + destruct R1 as [R1 R1']. destruct args2 as [|b args2].
        * destruct (read_words_start a R1) as (w & ws & Ew & Hw). cbn [all_words app] in E. rewrite Ew in E. cbn [app] in E. injection E as -> _. contradiction.
        * destruct R2 as [R2 R2']. cbn [all_words] in E. fold all_words in E. rewrite <- !app_assoc in E.
          destruct (IH a (IHa a (or_introl eq_refl)) R1) as [_ H]. destruct (H b ([WComma] ++ all_words args1 ++ [WClose] ++ k1) ([WComma] ++ all_words args2 ++ [WClose] ++ k2) R2 Logic.I Logic.I E) as [-> E']. clear H. injection E' as E'.
          destruct (IHl R1' (fun a' H => IHa a' (or_intror H)) args2 R2' E') as [-> ->]. now split.
    - cbn [words app] in E. injection E as E. rewrite <- !app_assoc in E. destruct (IH x1 ltac:(cbn; lia) R1) as [_ H]. destruct (H x2 ([WClose] ++ k1) ([WClose] ++ k2) R2 Logic.I Logic.I E) as [-> E']. injection E' as ->. now split. }
  split; [exact A|]. intros e2 k1 k2 R2 K1 K2 E.
  assert (Sk : forall e k ws op, single e -> words e ++ k = WOp op :: ws -> False).
  { intros e k ws op S H. destruct (read_single_words e k S) as (w1 & ws1 & E1 & N). rewrite E1 in H. injection H as H _. exact (N op H). }
  destruct (read_kinds e1 R1) as [S1|[(p1 & x1 & -> & P1 & Rx1)|(o1 & l1 & r1 & -> & S1 & Rl1 & Rr1)]]; destruct (read_kinds e2 R2) as [S2|[(p2 & x2 & -> & P2 & Rx2)|(o2 & l2 & r2 & -> & S2 & Rl2 & Rr2)]].
  - now apply A.
  - exfalso. rewrite words_unary in E by (now apply prefix_noop). exact (Sk _ _ _ _ S1 E).
  - exfalso. cbn [words] in E. rewrite <- !app_assoc in E. destruct (A l2 _ _ Rl2 S1 S2 E) as [_ ->]. exact K1.
  - exfalso. rewrite words_unary in E by (now apply prefix_noop). symmetry in E. exact (Sk _ _ _ _ S2 E).
  - rewrite !words_unary in E by (now apply prefix_noop). injection E as -> E. destruct (IH x1 ltac:(cbn; lia) Rx1) as [_ H]. destruct (H x2 _ _ Rx2 K1 K2 E) as [-> ->]. now split.
  - exfalso. rewrite words_unary in E by (now apply prefix_noop). cbn [words] in E. rewrite <- !app_assoc in E. symmetry in E. exact (Sk _ _ _ _ S2 E).
  - exfalso. cbn [words] in E. rewrite <- !app_assoc in E. destruct (IH l1 ltac:(cbn; lia) Rl1) as [H _]. destruct (H e2 _ _ R2 S1 S2 E) as [_ H2]. rewrite <- H2 in K2. exact K2.
  - exfalso. rewrite words_unary in E by (now apply prefix_noop). cbn [words] in E. rewrite <- !app_assoc in E. exact (Sk _ _ _ _ S1 E).
  - cbn [words] in E. rewrite <- !app_assoc in E. destruct (IH l1 ltac:(cbn; lia) Rl1) as [H _]. destruct (H l2 _ _ Rl2 S1 S2 E) as [-> E2]. injection E2 as -> E2.
    destruct (IH r1 ltac:(cbn; lia) Rr1) as [_ H2]. destruct (H2 r2 _ _ Rr2 K1 K2 E2) as [-> ->]. now split.
Qed.

(** There is one way to group. *)
Lemma tight_unique e1 e2 : tight e1 -> tight e2 -> words e1 = words e2 -> e1 = e2.
Proof.
  intros T1 T2 E. rewrite <- (norm_unroll e1 T1), <- (norm_unroll e2 T2). f_equal.
  destruct (read_inj (unroll e1) (unroll_read e1 T1)) as [_ H]. apply (H (unroll e2) [] [] (unroll_read e2 T2) Logic.I Logic.I). now rewrite !app_nil_r, !unroll_words.
Qed.

Lemma adjust_tight R : read_right R -> exists e, tight e /\ words e = words R /\ adjustPrecedence (8 * expr_size R) R = Some e.
Proof.
  intros H. exists (norm R). split; [now apply norm_tight|]. split; [apply norm_words|]. apply adjust_norm; [exact H|lia].
Qed.
Lemma adjust_is R e : read_right R -> tight e -> words e = words R -> adjustPrecedence (8 * expr_size R) R = Some e.
Proof.
  intros H T W. destruct (adjust_tight R H) as (e' & T' & W' & A). rewrite A. f_equal. apply tight_unique; congruence.
Qed.
