(** Adjusting for precedence. *)

From Verif Require Import ModelParser SpecExpr LemmasBase.

Lemma binds_prec op : binds op = opPrecedence op.
Proof. now destruct op. Qed.

Lemma outer_bin e : (exists op l r, e = BinaryExpr op l r) \/ outer e = 12 /\ (forall op l r, e <> BinaryExpr op l r).
Proof. destruct e; try (right; split; [reflexivity|discriminate]). left. eauto. Qed.

Lemma prec_max op : opPrecedence op < 12.
Proof. now destruct op. Qed.

(** The arguments of a call. *)
Definition adjustArgs (n : nat) : list expr -> option (list expr) :=
  fix adjustArgs (args : list expr) : option (list expr) :=
    match args with
    | [] => Some []
    | a :: args' =>
        match adjustPrecedence n a, adjustArgs args' with
        | Some a, Some r => Some (a :: r)
        | _, _ => None
        end
    end.
Definition sizes : list expr -> nat :=
  fix sizes (l : list expr) : nat := match l with [] => O | a :: l' => (expr_size a + sizes l')%nat end.
Definition all_grouped : list expr -> Prop :=
  fix all (args : list expr) : Prop := match args with [] => True | a :: args' => grouped a /\ all args' end.
Definition all_words : list expr -> list word :=
  fix all (args : list expr) : list word := match args with [] => [] | a :: args' => words a ++ [WComma] ++ all args' end.

Lemma adjust_sexpr n nam args : adjustPrecedence (S n) (SExpr nam args) = option_map (SExpr nam) (adjustArgs n args).
Proof. reflexivity. Qed.
Lemma size_sexpr nam args : expr_size (SExpr nam args) = S (sizes args).
Proof. reflexivity. Qed.
Lemma grouped_sexpr nam args : grouped (SExpr nam args) = all_grouped args.
Proof. reflexivity. Qed.
Lemma words_sexpr nam args : words (SExpr nam args) = [WCall nam] ++ all_words args ++ [WClose].
Proof. reflexivity. Qed.

Lemma size_pos e : (1 <= expr_size e)%nat.
Proof. destruct e; cbn; lia. Qed.

Definition unary_step (n : nat) (op : sqlop) (x : expr) : option expr :=
  match op with
  | NoOp => Some (UnaryExpr op x)
  | _ =>
      match x with
      | BinaryExpr bop l r =>
          if opPrecedence bop <? opPrecedence op
          then adjustPrecedence n (BinaryExpr bop (UnaryExpr op l) r)
          else Some (UnaryExpr op x)
      | _ => Some (UnaryExpr op x)
      end
  end.
Definition binary_step (n : nat) (op : sqlop) (l r : expr) : option expr :=
  let left :=
    match l with
    | BinaryExpr lop a b =>
        if opPrecedence lop <? opPrecedence op
        then adjustPrecedence n (BinaryExpr lop a (BinaryExpr op b r))
        else Some (BinaryExpr op l r)
    | _ => Some (BinaryExpr op l r)
    end in
  match r with
  | BinaryExpr rop a b =>
      if opPrecedence rop <=? opPrecedence op
      then adjustPrecedence n (BinaryExpr rop (BinaryExpr op l a) b)
      else left
  | _ => left
  end.
Lemma adjust_unary n op x x' : adjustPrecedence n x = Some x' -> adjustPrecedence (S n) (UnaryExpr op x) = unary_step n op x'.
Proof. intros H. cbn [adjustPrecedence]. rewrite H. destruct op; reflexivity. Qed.
Lemma adjust_binary n op l r l' r' : adjustPrecedence n l = Some l' -> adjustPrecedence n r = Some r' ->
  adjustPrecedence (S n) (BinaryExpr op l r) = binary_step n op l' r'.
Proof. intros H1 H2. cbn [adjustPrecedence]. now rewrite H1, H2. Qed.

Lemma unary_stays n op x : op = NoOp \/ binds op <= outer x -> unary_step n op x = Some (UnaryExpr op x).
Proof.
  intros H. destruct op; try reflexivity; destruct H as [H|H]; try discriminate H; destruct x; try reflexivity; cbn [outer] in H; cbn [unary_step];
    rewrite !binds_prec in H; (match goal with |- context [if ?b then _ else _] => replace b with false; [reflexivity|symmetry; apply Z.ltb_ge; exact H] end).
Qed.

Lemma binary_stays n op l r : binds op <= outer l -> binds op < outer r -> binary_step n op l r = Some (BinaryExpr op l r).
Proof.
  intros H1 H2. unfold binary_step. cbv zeta.
  assert (E : match l with BinaryExpr lop a b => if opPrecedence lop <? opPrecedence op then adjustPrecedence n (BinaryExpr lop a (BinaryExpr op b r)) else Some (BinaryExpr op l r) | _ => Some (BinaryExpr op l r) end = Some (BinaryExpr op l r)).
  { destruct l; try reflexivity. cbn [outer] in H1. rewrite !binds_prec in H1. now replace (opPrecedence op0 <? opPrecedence op) with false by (symmetry; apply Z.ltb_ge; exact H1). }
  rewrite E. destruct r; try reflexivity. cbn [outer] in H2. rewrite !binds_prec in H2.
  now replace (opPrecedence op0 <=? opPrecedence op) with false by (symmetry; apply Z.leb_gt; exact H2).
Qed.

(** Grouped expressions do not change. *)
Lemma adjust_grouped n : forall e, grouped e -> (expr_size e <= n)%nat -> adjustPrecedence n e = Some e.
Proof.
  induction n as [|n IH]; intros e G Hn; [pose proof (size_pos e); lia|]. destruct e as [v|ids|nam args|op x|op l r|op eop e0 s]; try reflexivity.
  - rewrite adjust_sexpr. rewrite size_sexpr in Hn. rewrite grouped_sexpr in G.
    enough (E : forall l, all_grouped l -> (sizes l <= n)%nat -> adjustArgs n l = Some l) by (rewrite E; [reflexivity|exact G|lia]).
    clear args G Hn. induction l as [|a l IHl]; intros G Hn; [reflexivity|]. cbn in G, Hn. destruct G as [G1 G2]. cbn [adjustArgs]. rewrite IH by (try assumption; lia).
    change ((fix adjustArgs (args : list expr) : option (list expr) := match args with [] => Some [] | a0 :: args' => match adjustPrecedence n a0 with Some a1 => match adjustArgs args' with Some r => Some (a1 :: r) | None => None end | None => None end end) l) with (adjustArgs n l).
    rewrite IHl by (try assumption; lia). reflexivity.
  - cbn [expr_size] in Hn. assert (Gx : grouped x /\ (op = NoOp \/ binds op <= outer x)) by (destruct op; cbn in G; tauto).
    rewrite (adjust_unary n op x x) by (apply IH; [tauto|lia]). apply unary_stays. tauto.
  - cbn [expr_size] in Hn. cbn [grouped] in G. destruct G as (G1 & G2 & G3 & G4). rewrite (adjust_binary n op l r l r) by (apply IH; [assumption|lia]).
    now apply binary_stays.
Qed.

(** Two grouped expressions around an operator. *)
Lemma adjust_join k : forall op l r, (expr_size l + expr_size r <= k)%nat -> grouped l -> grouped r ->
  exists t, grouped t /\ words t = words l ++ [WOp op] ++ words r /\ expr_size t = S (expr_size l + expr_size r) /\
    Z.min (binds op) (Z.min (outer l) (outer r)) <= outer t /\
    forall n, (3 * (expr_size l + expr_size r) <= n)%nat -> adjustPrecedence n (BinaryExpr op l r) = Some t.
Proof.
  induction k as [|k IH]; intros op l r Hk Gl Gr; [pose proof (size_pos l); lia|]. pose proof (size_pos l). pose proof (size_pos r).
  (* what the step gives *)
  enough (E : exists t, grouped t /\ words t = words l ++ [WOp op] ++ words r /\ expr_size t = S (expr_size l + expr_size r) /\
    Z.min (binds op) (Z.min (outer l) (outer r)) <= outer t /\
    forall n, (3 * (expr_size l + expr_size r) <= S n)%nat -> binary_step n op l r = Some t).
  { destruct E as (t & E1 & E2 & E3 & E4 & E5). exists t. repeat split; try assumption. intros n Hn. destruct n as [|n]; [lia|].
    rewrite (adjust_binary n op l r l r) by (apply adjust_grouped; [assumption|lia]). now apply E5. }
  assert (Hleft : binds op < outer r -> exists t, grouped t /\ words t = words l ++ [WOp op] ++ words r /\ expr_size t = S (expr_size l + expr_size r) /\
    Z.min (binds op) (Z.min (outer l) (outer r)) <= outer t /\
    forall n, (3 * (expr_size l + expr_size r) <= S n)%nat -> binary_step n op l r = Some t).
  { intros Hr. destruct (Z_le_gt_dec (binds op) (outer l)) as [Hl|Hl].
    - exists (BinaryExpr op l r). cbn [grouped words expr_size outer]. split; [now repeat split|]. split; [reflexivity|]. split; [reflexivity|].
      split; [lia|]. intros. now apply binary_stays.
    - destruct (outer_bin l) as [(lop & a & b & ->)|(E & _)]; [|pose proof (prec_max op); rewrite binds_prec in Hl; lia].
      cbn [outer] in *. cbn [grouped] in Gl. destruct Gl as (Ga & Gb & Ha & Hb). cbn [expr_size] in *.
      destruct (IH op b r) as (t & T1 & T2 & T3 & T4 & T5); [lia|assumption|assumption|].
      exists (BinaryExpr lop a t). cbn [grouped words expr_size outer]. split; [split; [exact Ga|split; [exact T1|split; [exact Ha|lia]]]|].
      split; [rewrite T2; rewrite <- ?app_assoc; reflexivity|]. split; [lia|]. split; [lia|]. intros n Hn.
      unfold binary_step. cbv zeta. replace (opPrecedence lop <? opPrecedence op) with true by (symmetry; apply Z.ltb_lt; repeat match goal with |- context [opPrecedence ?o] => rewrite <- (binds_prec o) end; lia).
      assert (E : adjustPrecedence n (BinaryExpr lop a (BinaryExpr op b r)) = Some (BinaryExpr lop a t)).
      { destruct n as [|n]; [lia|]. rewrite (adjust_binary n lop a (BinaryExpr op b r) a t); [apply binary_stays; lia|apply adjust_grouped; [assumption|lia]|apply T5; lia]. }
      destruct r; try exact E. cbn [outer] in Hr. rewrite !binds_prec in Hr.
      now replace (opPrecedence op0 <=? opPrecedence op) with false by (symmetry; apply Z.leb_gt; exact Hr). }
  destruct (Z_le_gt_dec (outer r) (binds op)) as [Hr|Hr]; [|apply Hleft; lia].
  destruct (outer_bin r) as [(rop & a & b & ->)|(E & _)]; [|pose proof (prec_max op); rewrite binds_prec in Hr; lia].
  cbn [outer] in *. cbn [grouped] in Gr. destruct Gr as (Ga & Gb & Ha & Hb). cbn [expr_size] in *. clear Hleft.
  destruct (IH op l a) as (l2 & T1 & T2 & T3 & T4 & T5); [lia|assumption|assumption|]. pose proof (size_pos a). pose proof (size_pos b).
  assert (Est : forall n, (3 * (expr_size l + S (expr_size a + expr_size b)) <= S (S n))%nat ->
    binary_step (S n) op l (BinaryExpr rop a b) = binary_step n rop l2 b).
  { intros n Hn. unfold binary_step at 1. cbv zeta. replace (opPrecedence rop <=? opPrecedence op) with true by (symmetry; apply Z.leb_le; repeat match goal with |- context [opPrecedence ?o] => rewrite <- (binds_prec o) end; lia).
    apply adjust_binary; [apply T5; lia|apply adjust_grouped; [assumption|lia]]. }
  destruct (Z_le_gt_dec (binds rop) (outer l2)) as [Hl|Hl].
  - exists (BinaryExpr rop l2 b). cbn [grouped words expr_size outer]. split; [now repeat split|]. split; [rewrite T2; rewrite <- ?app_assoc; reflexivity|]. split; [lia|].
    split; [lia|]. intros n Hn. destruct n as [|n]; [lia|]. rewrite Est by lia. now apply binary_stays.
  - destruct (outer_bin l2) as [(lop & x & y & ->)|(E & _)]; [|pose proof (prec_max rop); rewrite binds_prec in Hl; lia].
    cbn [outer] in *. cbn [grouped] in T1. destruct T1 as (Gx & Gy & Hx & Hy). cbn [expr_size] in T3.
    destruct (IH rop y b) as (r2 & S1 & S2 & S3 & S4 & S5); [pose proof (size_pos x); lia|assumption|assumption|].
    exists (BinaryExpr lop x r2). cbn [grouped words expr_size outer]. split; [split; [exact Gx|split; [exact S1|split; [exact Hx|lia]]]|].
    split. { rewrite S2. cbn [words] in T2. transitivity ((words x ++ [WOp lop] ++ words y) ++ [WOp rop] ++ words b); [rewrite <- ?app_assoc; reflexivity|].
      rewrite T2. rewrite <- ?app_assoc; reflexivity. }
    split; [lia|]. split; [lia|]. intros n Hn. destruct n as [|n]; [lia|]. rewrite Est by lia.
    unfold binary_step. cbv zeta. replace (opPrecedence lop <? opPrecedence rop) with true by (symmetry; apply Z.ltb_lt; repeat match goal with |- context [opPrecedence ?o] => rewrite <- (binds_prec o) end; lia).
    assert (E : adjustPrecedence n (BinaryExpr lop x (BinaryExpr rop y b)) = Some (BinaryExpr lop x r2)).
    { destruct n as [|n]; [lia|]. pose proof (size_pos x). pose proof (size_pos y).
      rewrite (adjust_binary n lop x (BinaryExpr rop y b) x r2); [apply binary_stays; lia|apply adjust_grouped; [assumption|lia]|apply S5; lia]. }
    destruct b; try exact E. cbn [outer] in Hb. rewrite !binds_prec in Hb.
    now replace (opPrecedence op0 <=? opPrecedence rop) with false by (symmetry; apply Z.leb_gt; exact Hb).
Qed.

(** A prefix operator before a grouped expression. *)
Lemma adjust_prefix k : forall op x, (expr_size x <= k)%nat -> grouped x -> op <> NoOp ->
  exists t, grouped t /\ words t = [WOp op] ++ words x /\ expr_size t = S (expr_size x) /\ outer x <= outer t /\
    forall n, (3 * S (expr_size x) <= n)%nat -> adjustPrecedence n (UnaryExpr op x) = Some t.
Proof.
  induction k as [|k IH]; intros op x Hk G Hop; [pose proof (size_pos x); lia|]. pose proof (size_pos x).
  assert (Hw : forall y, words (UnaryExpr op y) = [WOp op] ++ words y) by (intros; destruct op; try reflexivity; contradiction).
  destruct (Z_le_gt_dec (binds op) (outer x)) as [Hx|Hx].
  - exists (UnaryExpr op x). split; [destruct op; cbn; tauto|]. split; [apply Hw|]. split; [reflexivity|]. split; [destruct x; cbn; rewrite ?binds_prec; try lia; pose proof (prec_max op0); lia|].
    intros n Hn. destruct n as [|n]; [lia|]. rewrite (adjust_unary n op x x) by (apply adjust_grouped; [assumption|lia]). apply unary_stays. now right.
  - destruct (outer_bin x) as [(bop & l & r & ->)|(E & _)]; [|pose proof (prec_max op); rewrite binds_prec in Hx; lia].
    cbn [outer] in *. cbn [grouped] in G. destruct G as (Gl & Gr & Hl & Hr). cbn [expr_size] in *. pose proof (size_pos l). pose proof (size_pos r).
    destruct (IH op l) as (t & T1 & T2 & T3 & T4 & T5); [lia|assumption|assumption|].
    exists (BinaryExpr bop t r). cbn [grouped words expr_size outer]. split; [split; [exact T1|split; [exact Gr|split; lia]]|]. split; [rewrite T2; rewrite <- ?app_assoc; reflexivity|].
    split; [lia|]. split; [lia|]. intros n Hn. destruct n as [|n]; [lia|].
    rewrite (adjust_unary n op _ (BinaryExpr bop l r)) by (apply adjust_grouped; [cbn [grouped]; auto|cbn [expr_size]; lia]).
    transitivity (adjustPrecedence n (BinaryExpr bop (UnaryExpr op l) r)).
    + unfold unary_step. replace (opPrecedence bop <? opPrecedence op) with true by (symmetry; apply Z.ltb_lt; repeat match goal with |- context [opPrecedence ?o] => rewrite <- (binds_prec o) end; lia). now destruct op.
    + destruct n as [|n]; [lia|]. rewrite (adjust_binary n bop (UnaryExpr op l) r t r); [apply binary_stays; lia|apply T5; lia|apply adjust_grouped; [assumption|lia]].
Qed.

(** Any expression. *)
Lemma adjust_any k : forall e, (expr_size e <= k)%nat ->
  exists t, grouped t /\ words t = words e /\ expr_size t = expr_size e /\ forall n, (4 * expr_size e <= n)%nat -> adjustPrecedence n e = Some t.
Proof.
  induction k as [|k IH]; intros e Hk; [pose proof (size_pos e); lia|].
  assert (Atom : forall e, (forall n, adjustPrecedence (S n) e = Some e) -> grouped e -> exists t, grouped t /\ words t = words e /\ expr_size t = expr_size e /\ forall n, (4 * expr_size e <= n)%nat -> adjustPrecedence n e = Some t).
  { intros e0 H1 H2. exists e0. split; [exact H2|]. split; [reflexivity|]. split; [reflexivity|]. intros n Hn. destruct n; [pose proof (size_pos e0); lia|apply H1]. }
  destruct e as [v|ids|nam args|op x|op l r|op eop e0 s]; try (apply Atom; [reflexivity|exact Logic.I]).
  - rewrite size_sexpr in Hk.
    enough (E : exists ts, all_grouped ts /\ all_words ts = all_words args /\ sizes ts = sizes args /\ forall n, (4 * sizes args <= n)%nat -> adjustArgs n args = Some ts).
    { destruct E as (ts & E1 & E2 & E3 & E4). exists (SExpr nam ts). split; [exact E1|]. split; [now rewrite !words_sexpr, E2|]. split; [now rewrite !size_sexpr, E3|].
      intros n Hn. rewrite size_sexpr in Hn. destruct n as [|n]; [lia|]. rewrite adjust_sexpr, E4 by lia. reflexivity. }
    assert (Hs : (sizes args <= k)%nat) by lia. clear Hk. induction args as [|a args IHa].
    + exists []. now repeat split.
    + cbn [sizes] in Hs. destruct (IH a) as (t & T1 & T2 & T3 & T4); [pose proof (size_pos a); lia|]. destruct IHa as (ts & E1 & E2 & E3 & E4); [fold sizes in *; lia|].
      exists (t :: ts). split; [now split|]. split; [cbn [all_words]; fold all_words; now rewrite T2, E2|]. split; [cbn [sizes]; fold sizes; now rewrite T3, E3|].
      intros n Hn. cbn [sizes] in Hn. fold sizes in Hn. cbn [adjustArgs]. fold (adjustArgs n). rewrite T4 by lia. now rewrite E4 by lia.
  - cbn [expr_size] in Hk. destruct (IH x) as (t & T1 & T2 & T3 & T4); [lia|]. assert (D : op = NoOp \/ op <> NoOp) by (destruct op; (now left) || (right; discriminate)); destruct D as [->|N].
    + exists (UnaryExpr NoOp t). split; [exact T1|]. split; [cbn [words]; now rewrite T2|]. split; [cbn [expr_size]; lia|]. intros n Hn. cbn [expr_size] in Hn. destruct n as [|n]; [lia|].
      now rewrite (adjust_unary n NoOp x t) by (apply T4; lia).
    + destruct (adjust_prefix (expr_size t) op t ltac:(lia) T1 N) as (t2 & S1 & S2 & S3 & S4 & S5). exists t2. split; [exact S1|].
      split; [rewrite S2, T2; destruct op; try reflexivity; contradiction|]. split; [cbn [expr_size]; lia|]. intros n Hn. cbn [expr_size] in Hn. rewrite <- (S5 n) by lia.
      destruct n as [|n]; [lia|]. rewrite (adjust_unary n op x t) by (apply T4; lia). rewrite (adjust_unary n op t t) by (apply adjust_grouped; [exact T1|lia]). reflexivity.
  - cbn [expr_size] in Hk. destruct (IH l) as (l2 & L1 & L2 & L3 & L4); [lia|]. destruct (IH r) as (r2 & R1 & R2 & R3 & R4); [lia|].
    destruct (adjust_join (expr_size l2 + expr_size r2) op l2 r2 ltac:(lia) L1 R1) as (t & S1 & S2 & S3 & S4 & S5). exists t. split; [exact S1|].
    split; [rewrite S2, L2, R2; reflexivity|]. split; [cbn [expr_size]; lia|]. intros n Hn. cbn [expr_size] in Hn. rewrite <- (S5 n) by lia. destruct n as [|n]; [lia|].
    rewrite (adjust_binary n op l r l2 r2) by (first [apply L4|apply R4]; lia). rewrite (adjust_binary n op l2 r2 l2 r2) by (apply adjust_grouped; [assumption|lia]). reflexivity.
Qed.
