(** The parser accepts what the grammar of SpecAccepts has: expressions, queries and what is behind FROM. *)

From Verif Require Import ModelParser SpecAccepts LemmasBase LemmasAdjust LemmasListRun LemmasGrammar LemmasGrammarExpr LemmasExact.

Section ExactExpr.
  Variable id : bytes -> Z.
  Variable name : Z -> bytes.
  Variable over_ : nat.
  Notation lwp := (lwp id name over_).
  Notation takes := (takes id name over_).
  Notation a_operand := (a_operand id name).
  Notation a_sub := (a_sub id name).
  Notation a_args := (a_args id name).
  Notation a_whole := (a_whole id name).
  Notation a_wholes := (a_wholes id name).
  Notation a_results := (a_results id name).

  Lemma a_operand_first c e ts : a_operand c e ts -> exists t r, ts = t :: r /\ starts t /\ is_reserved t [kDEFAULT] = false.
  Proof. intros [ ]; (do 2 eexists; split; [reflexivity|]; split; [split; [reflexivity|split; discriminate]|reflexivity]). Qed.
  Lemma a_sub_first c e ts : a_sub c e ts -> exists t r, ts = t :: r /\ starts t /\ is_reserved t [kDEFAULT] = false.
  Proof.
    intros [o e0 t0 H|c0 t op b l r t0 t1 K H1 H2|e0 t0 H|e0 t0 H|e0 s t0 t1 H H1|e0 s t0 t1 H H1|t op k e0 s t0 t1 K1 K2 H H1|t op e0 s t0 t1 K H H1];
      match goal with H : a_operand _ _ _ |- _ => destruct (a_operand_first _ _ _ H) as (t9 & r9 & -> & S9) end; cbn [app]; eauto.
  Qed.
  Lemma a_args_first l ts : a_args l ts -> exists t r, ts = t :: r /\ starts t.
  Proof. intros [c e t0 H|c e l0 t0 t1 H H1]; destruct (a_sub_first _ _ _ H) as (t & r & -> & S & _); cbn [app]; eauto. Qed.
  Lemma a_whole_first e ts : a_whole e ts -> exists t r, ts = t :: r /\ starts t /\ is_reserved t [kDEFAULT] = false.
  Proof. intros [c e0 e1 t0 H _ _]. now apply (a_sub_first c e0). Qed.

  Lemma a_operand_dot c e ts rest i l : a_operand c e ts -> next (no_rune tDot) rest -> ts ++ rest = KIdent i :: KRune tDot :: l ->
    exists j l', l = KIdent j :: l'.
  Proof.
    intros [ | | | | | | |i0 l0 t0 D|f| |f l0 t0 A|c0 e0 t0 A|s0 t0 A|s0 t0 A|c0 e0 t0 A|c0 e0 t0 A] N E; cbn [app] in E; try discriminate E.
    destruct D as [|j l1 t1 D]; cbn [app] in E.
    - injection E as -> ->. now elim N.
    - injection E as -> <-. eauto.
  Qed.
  Lemma a_sub_dot c e ts rest i l : a_sub c e ts -> next (no_rune tDot) rest -> ts ++ rest = KIdent i :: KRune tDot :: l ->
    exists j l', l = KIdent j :: l'.
  Proof.
    intros [o e0 t0 H|c0 t op b l0 r t0 t1 K H1 H2|e0 t0 H|e0 t0 H|e0 s t0 t1 H H1|e0 s t0 t1 H H1|t op k e0 s t0 t1 K1 K2 H H1|t op e0 s t0 t1 K H H1] N E;
      try discriminate E; norm_toks; rewrite <- ?app_assoc in E; cbn [app] in E; try (now apply (a_operand_dot _ _ _ _ _ _ H N E)).
    1: (eapply a_operand_dot; [exact H1| |exact E]; exact (proj1 (proj1 (infix_after _ _ _ K)))).
    all: eapply a_operand_dot; [exact H| |exact E]; first [discriminate | exact (proj1 (proj1 (infix_after _ _ _ K))) | exact (proj1 (proj1 (infix_after _ _ _ K1)))].
  Qed.

  Section Ops.
    Context {B : Type}.
    Lemma w_binaryOp_yes t op b p a (h : _ -> act B) : In (t, op, b) infix_tokens ->
      lwp (h (Some (op, b))) (t :: p) a -> lwp (abind optionalBinaryOp h) p (t :: a).
    Proof. intros H K. unfold optionalBinaryOp. apply w_assoc, w_scan. cbn [infix_tokens In] in H. repeat (destruct H as [H|H]; [injection H as <- <- <-; exact K|]). contradiction. Qed.
    Lemma w_binaryOp_no t p a (h : _ -> act B) : binaryOps (rune_of t) = None -> is_reserved t [kAND; kOR] = false ->
      lwp (h None) p (t :: a) -> lwp (abind optionalBinaryOp h) p (t :: a).
    Proof.
      intros H1 H2 K. unfold optionalBinaryOp. apply w_assoc, w_scan. rewrite H1. destruct t as [| |e9|i9|k|s9|l9|i9|p9|i9|r9]; cbn in H2; try (lred; wsteps; exact K).
      cbn [is_reserved existsb]. destruct (k =? kAND); [discriminate|]. destruct (k =? kOR); [discriminate|]. cbn [orb]. apply w_assoc, w_unscan. exact K.
    Qed.
  End Ops.

  (** Nothing is read behind an expression. *)
  Lemma w_postfix_none n e p rest {B} (h : expr -> act B) : after_expr rest -> lwp (h e) p rest ->
    lwp (abind optionalBinaryOp (fun o => abind
      match o with
      | None => parsePostfix_ n (parseSubExpr n) (parseFromItem n) e
      | Some (op, bop) =>
        let+ b := optionalReserved [kANY; kSOME; kALL] in
        if b then
          if bop : bool then
            let+ t := tok_ in
            let+ s := parseSubquery_ n (parseSubExpr n) (parseFromItem n) in
            ARet (Subquery (if ident_of t =? kALL then All else Any) op (Some e) s)
          else AError
        else
          let+ r := parseSubExpr n tt in
          ARet (BinaryExpr op e r)
      end h)) p rest.
  Proof.
    intros F K. destruct rest as [|t rest]; [contradiction|]. destruct F as (F1 & F2 & F3 & F4).
    apply w_binaryOp_no; [exact F2|revert F3; apply is_reserved_sub; cbn; tauto|]. lred. unfold parsePostfix_. wstep1.
    destruct (is_reserved t [kNOT]) eqn:E.
    - specialize (F4 eq_refl). destruct rest as [|t' rest]; [contradiction|]. cbn [next] in F4. unfold no_word in F4.
      destruct t as [| |e9|i9|k|s9|l9|i9|p9|i9|r9]; try discriminate E. cbn [is_reserved existsb] in E. rewrite orb_false_r in E. apply Z.eqb_eq in E. subst.
      wsteps. cbn [ident_of Z.eqb Pos.eqb]. wsteps. exact K.
    - assert (F5 : is_reserved t [kIN; kNOT; kIS] = false).
      { destruct t as [| |e9|i9|k|s9|l9|i9|p9|i9|r9]; try reflexivity. cbn [is_reserved existsb] in *. destruct (k =? kIN), (k =? kNOT), (k =? kIS); try discriminate; try reflexivity; rewrite ?orb_true_r in F3; discriminate. }
      wsteps. exact K.
  Qed.

  Scheme a_operand_min := Minimality for SpecAccepts.a_operand Sort Prop
  with a_sub_min := Minimality for SpecAccepts.a_sub Sort Prop
  with a_args_min := Minimality for SpecAccepts.a_args Sort Prop
  with a_whole_min := Minimality for SpecAccepts.a_whole Sort Prop
  with a_wholes_min := Minimality for SpecAccepts.a_wholes Sort Prop
  with a_rows_min := Minimality for SpecAccepts.a_rows Sort Prop
  with a_result_min := Minimality for SpecAccepts.a_result Sort Prop
  with a_results_min := Minimality for SpecAccepts.a_results Sort Prop
  with a_opt_results_min := Minimality for SpecAccepts.a_opt_results Sort Prop
  with a_opt_whole_min := Minimality for SpecAccepts.a_opt_whole Sort Prop
  with a_opt_group_min := Minimality for SpecAccepts.a_opt_group Sort Prop
  with a_opt_from_min := Minimality for SpecAccepts.a_opt_from Sort Prop
  with a_select_min := Minimality for SpecAccepts.a_select Sort Prop
  with a_query_min := Minimality for SpecAccepts.a_query Sort Prop
  with a_from_operand_min := Minimality for SpecAccepts.a_from_operand Sort Prop
  with a_from_item_min := Minimality for SpecAccepts.a_from_item Sort Prop
  with a_from_list_min := Minimality for SpecAccepts.a_from_list Sort Prop
  with a_from_more_min := Minimality for SpecAccepts.a_from_more Sort Prop.
  Combined Scheme a_grammar_min from a_operand_min, a_sub_min, a_args_min, a_whole_min, a_wholes_min, a_rows_min, a_result_min, a_results_min,
    a_opt_results_min, a_opt_whole_min, a_opt_group_min, a_opt_from_min, a_select_min, a_query_min, a_from_operand_min, a_from_item_min, a_from_list_min, a_from_more_min.

  Lemma w_fromItem n {B} (h : _ -> act B) p a :
    lwp (abind (fromOperand_ n) (fun fi => abind (joinRest n fi) h)) p a -> lwp (abind (parseFromItem (S n) tt) h) p a.
  Proof.
    change (parseFromItem (S n) tt) with (fromItemBody n (parseSubExpr n) (parseFromItem n)). unfold fromItemBody, fromOperand_. intros K. apply w_assoc_back in K. apply w_assoc. revert K. apply w_ext. intros x p0 a0 K. apply w_assoc. exact K.
  Qed.

  Definition any {A} (_ : A) : Prop := True.
  Definition C_operand (c : bool) (e : expr) (ts : list tok) : Prop :=
    forall n, (length ts <= n)%nat -> takes (parseOperand_ n (parseSubExpr n) (parseFromItem n)) ts any (if c then next after_operand else after_expr).
  Definition C_sub (c : bool) (e : expr) (ts : list tok) : Prop :=
    forall n, (length ts < n)%nat -> takes (parseSubExpr n tt) ts any (if c then any else after_expr).
  Definition C_args (l : list expr) (ts : list tok) : Prop :=
    forall n m l0, (length ts < n)%nat -> (length ts < m)%nat -> takes (callLoop n m l0) (ts ++ [KRune tRParen]) any any.
  Definition C_whole (e : expr) (ts : list tok) : Prop :=
    forall n, (length ts < n)%nat -> takes (parseExpr n) ts any after_expr.
  Definition C_wholes (l : list expr) (ts : list tok) : Prop :=
    (forall n m l0, (length ts < n)%nat -> (length ts < m)%nat -> takes (rowLoop n m l0) (ts ++ [KRune tRParen]) (fun l' => length l' = length (l0 ++ l)) any) /\
    (forall n m l0, (length ts < n)%nat -> (length ts < m)%nat -> takes (groupLoop n m l0) ts any (fun r => after_expr r /\ next (no_rune tComma) r)).
  Definition C_rows (l : list (list expr)) (ts : list tok) : Prop :=
    forall n m l0, (length ts < n)%nat -> (length ts < m)%nat ->
      match l0 with [] => True | r0 :: _ => Forall (fun r => length r = length r0) l end ->
      takes (valuesLoop n m l0) ts (fun s => copies s = false) (next (no_rune tComma)).
  Definition C_result (r : selectresult expr) (ts : list tok) : Prop :=
    forall n rest p l0 B (h : _ -> act B), (length ts < n)%nat -> after_expr rest -> next after_alias rest ->
      (forall r, lwp (abind (resultMore (l0 ++ [r])) h) (rev ts ++ p) rest) -> lwp (abind (resultBody n l0) h) p (ts ++ rest).
  Definition C_results (l : list (selectresult expr)) (ts : list tok) : Prop :=
    (exists t r, ts = t :: r /\ rune_of t <> tStar) /\
    forall n m l0, (length ts < n)%nat -> (length ts < m)%nat -> takes (resultLoop n m l0) ts any (next after_results).
  Definition C_opt_results (o : option (list (selectresult expr))) (ts : list tok) : Prop :=
    match o with None => ts = [KRune tStar] | Some l => C_results l ts end.
  Definition C_opt_whole (k : Z) (o : option expr) (ts : list tok) : Prop :=
    match o with None => ts = [] | Some e => exists ts', ts = KReserved k :: ts' /\ C_whole e ts' end.
  Definition C_opt_group (l : list expr) (ts : list tok) : Prop :=
    (l = [] /\ ts = []) \/ exists ts', ts = KReserved kGROUP :: KReserved kBY :: ts' /\ C_wholes l ts'.
  Definition C_from_list (f : fromitem) (ts : list tok) : Prop :=
    no_query ts /\
    forall n, (length ts < n)%nat -> takes (parseFromList_ n (parseFromItem n)) ts any (next after_list).
  Definition C_opt_from (o : option fromitem) (ts : list tok) : Prop :=
    match o with None => ts = [] | Some f => exists ts', ts = KReserved kFROM :: ts' /\ C_from_list f ts' end.
  Definition C_select (s : stmt) (ts : list tok) : Prop :=
    forall n, (length ts < n)%nat -> takes (parseSelect n) ts (fun s => copies s = false) (next after_query).
  Definition C_query (s : stmt) (ts : list tok) : Prop :=
    forall n, (length ts <= n)%nat -> takes (optionalSubquery_ n (parseSubExpr n) (parseFromItem n)) ts (fun o => exists s, o = Some s) (next after_query).
  Definition C_from_operand (f : fromitem) (ts : list tok) : Prop :=
    no_query ts /\
    forall n, (length ts <= n)%nat -> takes (fromOperand_ n) ts any (next after_from_operand).
  Definition C_from_item (b : bool) (f : fromitem) (ts : list tok) : Prop :=
    no_query ts /\
    forall n, (length ts < n)%nat -> takes (parseFromItem n tt) ts any (next (after_item b)).
  Definition C_from_more (f f' : fromitem) (ts : list tok) : Prop :=
    (forall rest, next after_list rest -> next (after_item true) (ts ++ rest)) /\
    forall n m f0, (length ts < n)%nat -> (length ts < m)%nat -> takes (listLoop n m f0) ts any (next after_list).

  Ltac lens := repeat (progress (cbn [length] in *; rewrite ?app_length in * )); lia.
  Ltac ae := (split; [split; discriminate|split; [reflexivity|split; [reflexivity|discriminate]]]).
  Ltac fin := match goal with K : forall x, _ -> LemmasExact.lwp _ _ _ (_ x) _ _ |- _ => over K; try exact Logic.I; try reflexivity; try assumption end.

  Lemma w_show s ts : a_show id name s ts -> takes parseShow ts (fun s => copies s = false) (next after_query).
  Proof.
    intros [s0 ts0 H|k Hk].
    - eapply takes_mono; [apply reads_takes, reads_show; exact H|intros x <-; destruct H; reflexivity|exact (fun l H => H)].
    - intros B h p rest F K. unfold parseShow. norm_toks. wsteps.
      assert (E : forall i, 0 <= i -> (k =? i) = false) by (intros i Hi; apply Z.eqb_neq; lia).
      rewrite !E by (vm_compute; discriminate). cbn [orb]. wsteps. fin.
  Qed.

  Lemma w_opt_whole k o ts n : C_opt_whole k o ts -> (length ts < n)%nat -> takes (optionalExpr_ (parseSubExpr n) k) ts any (fun l => after_expr l /\ next (no_word [k]) l).
  Proof.
    intros C Hl B h p rest [G1 G2] K. unfold optionalExpr_. change (parseExpr_ (parseSubExpr n)) with (parseExpr n). destruct o as [e|].
    - destruct C as (ts' & -> & C). norm_toks. wsteps. apply w_optional_yes; [cbn; now rewrite Z.eqb_refl|]. lred. wuse (C n ltac:(lens)); [exact G1|]. intros x _. wsteps. fin.
    - cbn in C. subst ts. norm_toks. wsteps. apply w_optional_no'; [exact G2|]. lred. wsteps. fin.
  Qed.

  Lemma takes_grammar :
    (forall c e ts, a_operand c e ts -> C_operand c e ts) /\
    (forall c e ts, a_sub c e ts -> C_sub c e ts) /\
    (forall l ts, a_args l ts -> C_args l ts) /\
    (forall e ts, a_whole e ts -> C_whole e ts) /\
    (forall l ts, a_wholes l ts -> C_wholes l ts) /\
    (forall l ts, SpecAccepts.a_rows id name l ts -> C_rows l ts) /\
    (forall r ts, SpecAccepts.a_result id name r ts -> C_result r ts) /\
    (forall l ts, a_results l ts -> C_results l ts) /\
    (forall o ts, SpecAccepts.a_opt_results id name o ts -> C_opt_results o ts) /\
    (forall k o ts, SpecAccepts.a_opt_whole id name k o ts -> C_opt_whole k o ts) /\
    (forall l ts, SpecAccepts.a_opt_group id name l ts -> C_opt_group l ts) /\
    (forall o ts, SpecAccepts.a_opt_from id name o ts -> C_opt_from o ts) /\
    (forall s ts, SpecAccepts.a_select id name s ts -> C_select s ts) /\
    (forall s ts, SpecAccepts.a_query id name s ts -> C_query s ts) /\
    (forall f ts, SpecAccepts.a_from_operand id name f ts -> C_from_operand f ts) /\
    (forall b f ts, SpecAccepts.a_from_item id name b f ts -> C_from_item b f ts) /\
    (forall f ts, SpecAccepts.a_from_list id name f ts -> C_from_list f ts) /\
    (forall f f' ts, SpecAccepts.a_from_more id name f f' ts -> C_from_more f f' ts).
  Proof.
    apply a_grammar_min.
    (* operands *)
    - intros n Hn B h p rest F K. unfold parseOperand_. norm_toks. wsteps. fin.
    - intros n Hn B h p rest F K. unfold parseOperand_. norm_toks. wsteps. fin.
    - intros n Hn B h p rest F K. unfold parseOperand_. norm_toks. wsteps. fin.
    - intros v n Hn B h p rest F K. unfold parseOperand_. norm_toks. wsteps. fin.
    - intros v n Hn B h p rest F K. unfold parseOperand_. norm_toks. wsteps. fin.
    - intros v n Hn B h p rest F K. unfold parseOperand_. norm_toks. wsteps. fin.
    - intros b v n Hn B h p rest F K. unfold parseOperand_. norm_toks. wsteps. fin.
    - (* ref *) intros i l ts D n Hn B h p rest F K. unfold parseOperand_. norm_toks. wsteps.
      destruct rest as [|t rest]; [contradiction|]. destruct F as [F1 F2].
      assert (KK : exists t' r', ts ++ t :: rest = t' :: r' /\ rune_of t' <> tLParen) by (destruct D; cbn [app]; eauto; do 2 eexists; split; [reflexivity|discriminate]).
      destruct KK as (t' & r' & K1 & K2). rewrite K1. wsteps. rewrite <- K1. unfold parseRef_. wsteps. cbn [ident_of].
      assert (L : forall n l0 ts l, dots l ts -> (length ts < n)%nat -> takes (aloop n (fun ids =>
         let+ dot := maybeToken tDot in if dot then let+ id := expectIdentifier in ARet (inl (ids ++ [id])) else ARet (inr ids)) l0) ts any (next (no_rune tDot))).
      { clear. intros n l0 ts l D. revert n l0. induction D as [|i l ts D IH]; intros n l0 Hn B h p rest F K; (destruct n as [|n]; [lens|]); norm_toks.
        - destruct rest as [|t rest]; [contradiction|]. cbn in F. unfold no_rune in F. wsteps. fin.
        - wsteps. wuse (IH n (l0 ++ [i]) ltac:(lens)); [exact F|]. intros x _. fin. }
      wuse (L n [i] ts l D ltac:(lens)); [exact F1|]. intros x _. wsteps. fin.
    - (* f() *) intros f n Hn B h p rest F K. unfold parseOperand_. norm_toks. wsteps. unfold parseCall_. wsteps. fin.
    - (* count *) intros n Hn B h p rest F K. unfold parseOperand_. norm_toks. wsteps. unfold parseCall_. wsteps. cbn [Z.eqb Pos.eqb]. wsteps. fin.
    - (* call *) intros f l ts A I2 n Hn B h p rest F K. unfold parseOperand_. norm_toks. wsteps. unfold parseCall_.
      destruct (a_args_first _ _ A) as (t & r & E & S1 & S2 & S3).
      assert (E' : ts ++ KRune 41 :: rest = t :: r ++ KRune 41 :: rest) by (now rewrite E).
      assert (Q : lwp (abind (callLoop n n []) (fun l => h (SExpr f l))) (KRune 40 :: KIdent f :: p) (ts ++ KRune 41 :: rest)).
      { wuse (I2 n n [] ltac:(lens) ltac:(lens)); [exact Logic.I|]. intros x _. fin. }
      rewrite E' in *. wsteps. destruct (f =? iCOUNT); wsteps; exact Q.
    - (* paren *) intros c e ts A I2 n Hn B h p rest F K. unfold parseOperand_. norm_toks. wsteps. cbn [rune_of Z.eqb Pos.eqb]. wsteps.
      destruct (a_sub_first _ _ _ A) as (t & r & E & (S1 & S2 & S3) & _).
      assert (E' : ts ++ KRune 41 :: rest = t :: r ++ KRune 41 :: rest) by (now rewrite E). rewrite E'. unfold optionalSubquery_. wsteps.
      assert (G1 : is_reserved t [kSELECT] = false) by (revert S1; apply is_reserved_sub; cbn; tauto).
      assert (G2 : is_reserved t [kVALUES] = false) by (revert S1; apply is_reserved_sub; cbn; tauto).
      assert (G3 : is_reserved t [kSHOW] = false) by (revert S1; apply is_reserved_sub; cbn; tauto).
      assert (G4 : is_reserved t [kTABLE] = false) by (revert S1; apply is_reserved_sub; cbn; tauto).
      wsteps. rewrite <- E'. wuse (I2 n ltac:(lens)); [destruct c; [exact Logic.I|ae]|]. intros x _. wsteps. cbn [rune_of Z.eqb Pos.eqb]. wsteps. fin.
    - (* query *) intros s ts A I2 n Hn B h p rest F K. unfold parseOperand_. norm_toks. wsteps. cbn [rune_of Z.eqb Pos.eqb]. wsteps.
      wuse (I2 n ltac:(lens)); [cbn; tauto|]. intros x [s0 ->]. wsteps. cbn [rune_of Z.eqb Pos.eqb]. wsteps. fin.
    - (* exists *) intros s ts A I2 n Hn B h p rest F K. unfold parseOperand_. norm_toks. wsteps. cbn [rune_of Z.eqb Pos.eqb]. unfold parseSubquery_. wsteps.
      wuse (I2 n ltac:(lens)); [cbn; tauto|]. intros x [s0 ->]. wsteps. fin.
    - (* not *) intros c e ts A I2 n Hn B h p rest F K. unfold parseOperand_. norm_toks. wsteps. cbn [Z.eqb Pos.eqb]. wsteps. wuse (I2 n ltac:(lens)); [destruct c; [exact Logic.I|exact F]|]. intros x _. wsteps. fin.
    - (* minus *) intros c e ts A I2 n Hn B h p rest F K. unfold parseOperand_. norm_toks. wsteps. cbn [rune_of Z.eqb Pos.eqb]. wsteps. wuse (I2 n ltac:(lens)); [destruct c; [exact Logic.I|exact F]|]. intros x _. wsteps. fin.
    (* expressions *)
    - intros o e ts A I2 [|n] Hn B h p rest F K; [lia|]. change (parseSubExpr (S n) tt) with (subExprBody n (parseSubExpr n) (parseFromItem n)). unfold subExprBody. norm_toks. wstep1.
      wuse (I2 n ltac:(lens)); [destruct o; [destruct rest; [contradiction|apply F]|exact F]|]. intros x _. wsteps. apply w_postfix_none; [exact F|]. fin.
    - (* infix *) intros c t op b l r ts ts' K A I2 A' J2. destruct (infix_after _ _ _ K) as (K1 & K2 & K3).
      intros [|n] Hn B h p rest F KK; [lia|]. change (parseSubExpr (S n) tt) with (subExprBody n (parseSubExpr n) (parseFromItem n)). unfold subExprBody. norm_toks. wstep1.
      wuse (I2 n ltac:(lens)); [exact K1|]. intros x _. wsteps. apply (w_binaryOp_yes _ _ _ _ _ _ K). lred.
      destruct (a_sub_first _ _ _ A') as (t1 & r1 & E & (S1 & S2 & S3) & _).
      assert (E' : ts' ++ rest = t1 :: r1 ++ rest) by (now rewrite E). rewrite E'.
      assert (G1 : is_reserved t1 [kANY; kSOME; kALL] = false) by (revert S1; apply is_reserved_sub; cbn; tauto).
      wsteps. rewrite <- E'. wuse (J2 n ltac:(lens)); [exact F|]. intros y _. wsteps. fin.
    - (* is null *) intros e ts A I2 [|n] Hn B h p rest F K; [lia|]. change (parseSubExpr (S n) tt) with (subExprBody n (parseSubExpr n) (parseFromItem n)). unfold subExprBody. norm_toks. wstep1.
      wuse (I2 n ltac:(lens)); [split; discriminate|]. intros x _. wsteps. apply w_binaryOp_no; [reflexivity..|]. lred. unfold parsePostfix_. wsteps. cbn [ident_of Z.eqb Pos.eqb]. wsteps. fin.
    - intros e ts A I2 [|n] Hn B h p rest F K; [lia|]. change (parseSubExpr (S n) tt) with (subExprBody n (parseSubExpr n) (parseFromItem n)). unfold subExprBody. norm_toks. wstep1.
      wuse (I2 n ltac:(lens)); [split; discriminate|]. intros x _. wsteps. apply w_binaryOp_no; [reflexivity..|]. lred. unfold parsePostfix_. wsteps. cbn [ident_of Z.eqb Pos.eqb]. wsteps. fin.
    - (* in *) intros e s ts ts' A I2 A' J [|n] Hn B h p rest F K; [lia|]. change (parseSubExpr (S n) tt) with (subExprBody n (parseSubExpr n) (parseFromItem n)). unfold subExprBody. norm_toks. wstep1.
      wuse (I2 n ltac:(lens)); [split; discriminate|]. intros x _. wsteps. apply w_binaryOp_no; [reflexivity..|]. lred. unfold parsePostfix_. wsteps. cbn [ident_of Z.eqb Pos.eqb]. unfold parseSubquery_. wsteps.
      wuse (J n ltac:(lens)); [cbn; tauto|]. intros y [s0 ->]. wsteps. fin.
    - (* not in *) intros e s ts ts' A I2 A' J [|n] Hn B h p rest F K; [lia|]. change (parseSubExpr (S n) tt) with (subExprBody n (parseSubExpr n) (parseFromItem n)). unfold subExprBody. norm_toks. wstep1.
      wuse (I2 n ltac:(lens)); [split; discriminate|]. intros x _. wsteps. apply w_binaryOp_no; [reflexivity..|]. lred. unfold parsePostfix_. wsteps. cbn [ident_of Z.eqb Pos.eqb]. unfold parseSubquery_. wsteps.
      wuse (J n ltac:(lens)); [cbn; tauto|]. intros y [s0 ->]. wsteps. fin.
    - (* any *) intros t op k e s ts ts' K K' A I2 A' J. destruct (infix_after _ _ _ K) as (K1 & K2 & K3). intros [|n] Hn B h p rest F KK; [lia|]. change (parseSubExpr (S n) tt) with (subExprBody n (parseSubExpr n) (parseFromItem n)). unfold subExprBody. norm_toks. wstep1.
      wuse (I2 n ltac:(lens)); [exact K1|]. intros x _. wsteps. apply (w_binaryOp_yes _ _ _ _ _ _ K). lred. unfold parseSubquery_.
      destruct K' as [<-|[<-|[]]]; wsteps; cbn [ident_of Z.eqb Pos.eqb]; wsteps; (wuse (J n ltac:(lens)); [cbn; tauto|]); intros y [s0 ->]; wsteps; fin.
    - (* all *) intros t op e s ts ts' K A I2 A' J. destruct (infix_after _ _ _ K) as (K1 & K2 & K3). intros [|n] Hn B h p rest F KK; [lia|]. change (parseSubExpr (S n) tt) with (subExprBody n (parseSubExpr n) (parseFromItem n)). unfold subExprBody. norm_toks. wstep1.
      wuse (I2 n ltac:(lens)); [exact K1|]. intros x _. wsteps. apply (w_binaryOp_yes _ _ _ _ _ _ K). lred. unfold parseSubquery_.
      wsteps; cbn [ident_of Z.eqb Pos.eqb]; wsteps; (wuse (J n ltac:(lens)); [cbn; tauto|]); intros y [s0 ->]; wsteps; fin.
    (* arguments *)
    - intros c e ts A I2 n [|m] l0 Hn Hm B h p rest F K; [lia|]. unfold callLoop. norm_toks. wsteps. wuse (I2 n ltac:(lens)); [destruct c; [exact Logic.I|ae]|]. intros x _. wsteps. fin.
    - intros c e l ts ts' A I2 A' J2 n [|m] l0 Hn Hm B h p rest F K; [lia|]. unfold callLoop. norm_toks. wsteps. wuse (I2 n ltac:(lens)); [destruct c; [exact Logic.I|ae]|]. intros x _. wsteps.
      wuse (J2 n m (l0 ++ [x]) ltac:(lens) ltac:(lens)); [exact Logic.I|]. intros y _. fin.
    (* whole expressions *)
    - intros c e0 e ts A I2 T W R n Hn B h p rest F K. unfold parseExpr, parseExpr_. wstep1. wuse (I2 n Hn); [destruct c; [exact Logic.I|exact F]|]. intros x _. unfold adjust.
      destruct (adjust_any (expr_size x) x (le_n _)) as (t & _ & _ & _ & E). rewrite E by lia. wsteps. fin.
    - intros e ts A I2. split; intros n [|m] l0 Hn Hm B h p rest F K; try lia; [unfold rowLoop|unfold groupLoop]; norm_toks; wsteps.
      + wuse (I2 n ltac:(lens)); [ae|]. intros x _. wsteps. cbn [rune_of Z.eqb Pos.eqb]. wsteps. fin. rewrite !app_length. reflexivity.
      + destruct F as [F1 F2]. wuse (I2 n ltac:(lens)); [exact F1|]. intros x _. destruct rest as [|t rest]; [contradiction|]. cbn [next] in F2. unfold no_rune in F2. wsteps. fin.
    - intros e l ts ts' A I2 A' [J1 J2]. split; intros n [|m] l0 Hn Hm B h p rest F K; try lia; [unfold rowLoop|unfold groupLoop]; norm_toks; wsteps.
      + wuse (I2 n ltac:(lens)); [ae|]. intros x _. wsteps. cbn [rune_of Z.eqb Pos.eqb]. wsteps. wuse (J1 n m (l0 ++ [x]) ltac:(lens) ltac:(lens)); [exact Logic.I|]. intros y Hy. fin. lens.
      + wuse (I2 n ltac:(lens)); [ae|]. intros x _. wsteps. wuse (J2 n m (l0 ++ [x]) ltac:(lens) ltac:(lens)); [exact F|]. intros y _. fin.
    (* rows *)
    - intros l ts A [I1 _] n [|m] l0 Hn Hm N B h p rest F K; [lia|]. unfold valuesLoop. norm_toks. wsteps. wuse (I1 n n [] ltac:(lens) ltac:(lens)); [exact Logic.I|]. intros x Hx. cbn [app] in Hx.
      destruct rest as [|t rest]; [contradiction|]. cbn [next] in F. unfold no_rune in F.
      replace (match l0 with [] => false | r0 :: _ => negb (length r0 =? length x)%nat end) with false
        by (destruct l0; [reflexivity|]; inversion N; subst; symmetry; apply negb_false_iff, Nat.eqb_eq; congruence).
      wsteps. fin.
    - intros l ls ts ts' A [I1 _] A' J NN n [|m] l0 Hn Hm N B h p rest F K; [lia|]. unfold valuesLoop. norm_toks. wsteps. wuse (I1 n n [] ltac:(lens) ltac:(lens)); [exact Logic.I|]. intros x Hx. cbn [app] in Hx.
      replace (match l0 with [] => false | r0 :: _ => negb (length r0 =? length x)%nat end) with false
        by (destruct l0; [reflexivity|]; inversion N; subst; symmetry; apply negb_false_iff, Nat.eqb_eq; congruence).
      wsteps. wuse (J n m (l0 ++ [x]) ltac:(lens) ltac:(lens) ltac:(destruct l0; [cbn [app]; rewrite Hx; exact NN|now inversion N])); [exact F|]. intros y Hy. fin.
    (* results *)
    - intros t n rest p l0 B h Hn F1 F2 K. unfold resultBody. norm_toks. wsteps. eapply w_past; [apply K|wpast].
    - intros e a ts ts' A I2 A' n rest p l0 B h Hn F1 F2 K. destruct A as [c e0 e ts A T W R].
      destruct (a_sub_first _ _ _ A) as (t & r & E & (S1 & S2 & S3) & _).
      destruct rest as [|t1 rest]; [contradiction|].
      assert (FF : after_expr (ts' ++ t1 :: rest)) by (destruct A' as [|a ts' [ ]]; [exact F1|ae..]).
      assert (Q : forall i l, ts ++ ts' ++ t1 :: rest = KIdent i :: KRune tDot :: l -> exists j l', l = KIdent j :: l').
      { intros i l. apply (a_sub_dot _ _ _ _ _ _ A). destruct (ts' ++ t1 :: rest); [contradiction|]. apply FF. }
      assert (E1 : exists t2 r2, ts' ++ t1 :: rest = t2 :: r2) by (destruct ts'; cbn [app]; eauto). destruct E1 as (t2 & r2 & E1).
      assert (Z0 : lwp (abind (resultExpr n l0) h) p (ts ++ ts' ++ t1 :: rest)).
      { unfold resultExpr. wsteps. wuse (I2 n ltac:(lens)); [exact FF|]. intros x _. wsteps. wuse (reads_takes id name over_ _ _ _ _ (reads_optAlias id name a ts' A')); [exact F2|]. intros y <-. eapply w_past; [apply K|wpast]. }
      rewrite <- app_assoc. rewrite E in *. cbn [app] in *. unfold resultBody. wsteps.
      assert (E2 : exists t3 r3, r ++ ts' ++ t1 :: rest = t3 :: r3) by (destruct r; cbn [app]; [rewrite E1|]; eauto). destruct E2 as (t3 & r3 & E2). rewrite E2 in *.
      destruct t; wsteps; try exact Z0.
      destruct (Z.eq_dec (rune_of t3) tDot) as [D|D]; [|wsteps; exact Z0].
      assert (D' : t3 = KRune tDot) by (destruct t3; try discriminate D; cbn in D; now subst). subst t3. destruct (Q _ _ eq_refl) as (j & l' & ->). wsteps. exact Z0.
    - intros r ts A I2. split.
      { destruct A as [t|e a ts ts' A A']; [do 2 eexists; split; [reflexivity|discriminate]|]. destruct (a_whole_first _ _ A) as (t & r & -> & (S1 & S2 & S3) & _). cbn [app]. eauto. }
      intros n [|m] l0 Hn Hm B h p rest F K; [lia|]. unfold resultLoop. wsteps. destruct rest as [|t rest]; [contradiction|]. cbn [next] in F.
      apply I2; [lens|each F; ae|each F; split; (exact Logic.I || reflexivity)|]. intros r0. unfold resultMore. assert (G : rune_of t <> tComma) by (each F; discriminate). wsteps. fin.
    - intros r l ts ts' A I2 A' [_ J]. split.
      { destruct A as [t|e a ts1 ts2 A A1]; [do 2 eexists; split; [reflexivity|discriminate]|]. destruct (a_whole_first _ _ A) as (t & r & -> & (S1 & S2 & S3) & _). cbn [app]. eauto. }
      intros n [|m] l0 Hn Hm B h p rest F K; [lia|]. unfold resultLoop. norm_toks. wsteps.
      apply I2; [lens|ae|split; (exact Logic.I || reflexivity)|]. intros r0. unfold resultMore. wsteps. wuse (J n m (l0 ++ [r0]) ltac:(lens) ltac:(lens)); [exact F|]. intros y _. fin.
    - reflexivity.
    - intros l ts A I2. exact I2.
    - reflexivity.
    - intros k e ts A I2. exists ts. now split.
    - now left.
    - intros l ts A I2. right. exists ts. now split.
    - reflexivity.
    - intros f ts A I2. exists ts. now split.
    - (* select *) intros r f w g hv o tr tf tw tg th to Ar Ir Af If Aw Iw Ag Ig Ah Ih Ao n Hn B h p rest F K.
      assert (Fo : next after_having (to ++ rest)).
      { destruct Ao as [|l ts Ao]; cbn [app]; [|cbn; tauto]. eapply next_mono; [exact F|]. intros t G. each G; cbn; tauto. }
      assert (Fh : next after_group (th ++ to ++ rest)).
      { destruct hv as [e|]; [destruct Ih as (ts' & -> & _); right; reflexivity|cbn in Ih; subst th; eapply next_mono; [exact Fo|]; intros t G; now left]. }
      assert (Fg : next after_where (tg ++ th ++ to ++ rest)).
      { destruct Ig as [[-> ->]|(ts' & -> & _)]; [eapply next_mono; [exact Fh|]; intros t G; now left|right; reflexivity]. }
      assert (Fw : next after_list (tw ++ tg ++ th ++ to ++ rest)).
      { destruct w as [e|]; [destruct Iw as (ts' & -> & _); right; reflexivity|cbn in Iw; subst tw; eapply next_mono; [exact Fg|]; intros t G; now left]. }
      assert (Ff : next after_results (tf ++ tw ++ tg ++ th ++ to ++ rest)).
      { destruct f as [e|]; [destruct If as (ts' & -> & _); right; reflexivity|cbn in If; subst tf; eapply next_mono; [exact Fw|]; intros t G; now left]. }
      assert (Y : forall (P : tok -> Prop) l k, next P l -> (forall t, P t -> is_reserved t [k] = false) -> next (no_word [k]) l) by (intros P l k G1 G2; eapply next_mono; [exact G1|exact G2]).
      assert (Z1 : after_expr (tg ++ th ++ to ++ rest)) by (apply results_expr; eapply next_mono; [exact Fg|]; intros t G; now do 2 left).
      assert (Z2 : after_expr (to ++ rest)) by (apply results_expr; eapply next_mono; [exact Fo|]; intros t G; now do 4 left).
      assert (Z3 : after_expr (th ++ to ++ rest)) by (apply results_expr; eapply next_mono; [exact Fh|]; intros t G; now do 3 left).
      unfold parseSelect, parseSelect_. norm_toks.
      (* from behind *)
      assert (K5 : forall r f w g hv, lwp (abind (optionalReserved [kORDER]) (fun b =>
        abind (if b then expectReserved [kBY] ;+ parseOrderBy_ n else ARet []) (fun order => h (SSelect r f w g hv order)))) (rev th ++ rev tg ++ rev tw ++ rev tf ++ rev tr ++ p) (to ++ rest)).
      { intros r0 f0 w0 g0 hv0. destruct Ao as [|l ts Ao].
        - cbn [app]. apply w_optional_no'; [eapply Y; [exact F|]; intros t G; each G; reflexivity|]. lred. wsteps. fin.
        - norm_toks. wsteps. wuse (reads_takes id name over_ _ _ _ _ (reads_order id name n l ts Ao ltac:(lens))); [eapply next_mono; [exact F|]; intros t G; each G; (split; [split; reflexivity|discriminate])|]. intros x _. fin. }
      assert (K4 : forall r f w g, lwp (abind (optionalExpr_ (parseSubExpr n) kHAVING) (fun hv => abind (optionalReserved [kORDER]) (fun b =>
        abind (if b then expectReserved [kBY] ;+ parseOrderBy_ n else ARet []) (fun order => h (SSelect r f w g hv order))))) (rev tg ++ rev tw ++ rev tf ++ rev tr ++ p) (th ++ to ++ rest)).
      { intros r0 f0 w0 g0. wuse (w_opt_whole _ _ _ n Ih ltac:(lens)); [split; [exact Z2|eapply Y; [exact Fo|]; intros t G; each G; reflexivity]|]. intros x _. apply K5. }
      assert (K3 : forall r f w, lwp (abind (optionalReserved [kGROUP]) (fun b => abind (if b then expectReserved [kBY] ;+ groupLoop n n [] else ARet []) (fun g =>
        abind (optionalExpr_ (parseSubExpr n) kHAVING) (fun hv => abind (optionalReserved [kORDER]) (fun b =>
        abind (if b then expectReserved [kBY] ;+ parseOrderBy_ n else ARet []) (fun order => h (SSelect r f w g hv order))))))) (rev tw ++ rev tf ++ rev tr ++ p) (tg ++ th ++ to ++ rest)).
      { intros r0 f0 w0. destruct Ig as [[-> ->]|(ts' & -> & _ & Ig)].
        - cbn [app]. apply w_optional_no'; [eapply Y; [exact Fh|]; intros t G; each G; reflexivity|]. lred. wsteps. eapply w_past; [apply K4|wpast].
        - norm_toks. wsteps. wuse (Ig n n [] ltac:(lens) ltac:(lens)); [split; [exact Z3|eapply next_mono; [exact Fh|]; intros t G; each G; discriminate]|]. intros x _. eapply w_past; [apply K4|wpast]. }
      assert (K2 : forall r f, lwp (abind (optionalExpr_ (parseSubExpr n) kWHERE) (fun w => abind (optionalReserved [kGROUP]) (fun b => abind (if b then expectReserved [kBY] ;+ groupLoop n n [] else ARet []) (fun g =>
        abind (optionalExpr_ (parseSubExpr n) kHAVING) (fun hv => abind (optionalReserved [kORDER]) (fun b =>
        abind (if b then expectReserved [kBY] ;+ parseOrderBy_ n else ARet []) (fun order => h (SSelect r f w g hv order)))))))) (rev tf ++ rev tr ++ p) (tw ++ tg ++ th ++ to ++ rest)).
      { intros r0 f0. wuse (w_opt_whole _ _ _ n Iw ltac:(lens)); [split; [exact Z1|eapply Y; [exact Fg|]; intros t G; each G; reflexivity]|]. intros x _. apply K3. }
      assert (K1 : forall r, lwp (abind (optionalReserved [kFROM]) (fun b => abind (if b then (let+ f := parseFromList_ n (parseFromItem n) in ARet (Some f)) else ARet None) (fun f =>
        abind (optionalExpr_ (parseSubExpr n) kWHERE) (fun w => abind (optionalReserved [kGROUP]) (fun b => abind (if b then expectReserved [kBY] ;+ groupLoop n n [] else ARet []) (fun g =>
        abind (optionalExpr_ (parseSubExpr n) kHAVING) (fun hv => abind (optionalReserved [kORDER]) (fun b =>
        abind (if b then expectReserved [kBY] ;+ parseOrderBy_ n else ARet []) (fun order => h (SSelect r f w g hv order)))))))))) (rev tr ++ p) (tf ++ tw ++ tg ++ th ++ to ++ rest)).
      { intros r0. destruct f as [f|].
        - destruct If as (ts' & -> & _ & If). norm_toks. wsteps. wuse (If n ltac:(lens)); [exact Fw|]. intros x _. wsteps. eapply w_past; [apply K2|wpast].
        - cbn in If. subst tf. cbn [app]. apply w_optional_no'; [eapply Y; [exact Fw|]; intros t G; each G; reflexivity|]. lred. wsteps. eapply w_past; [apply K2|wpast]. }
      assert (K0 : forall rs, lwp (abind (abind (optionalReserved [kFROM]) (fun b => abind (if b then (let+ f := parseFromList_ n (parseFromItem n) in ARet (Some f)) else ARet None) (fun f =>
        abind (optionalExpr_ (parseSubExpr n) kWHERE) (fun w => abind (optionalReserved [kGROUP]) (fun b => abind (if b then expectReserved [kBY] ;+ groupLoop n n [] else ARet []) (fun g =>
        abind (optionalExpr_ (parseSubExpr n) kHAVING) (fun hv => abind (optionalReserved [kORDER]) (fun b =>
        abind (if b then expectReserved [kBY] ;+ parseOrderBy_ n else ARet []) (fun order => ARet (SSelect rs f w g hv order)))))))))) h) (rev tr ++ p) (tf ++ tw ++ tg ++ th ++ to ++ rest)).
      { intros rs. apply w_assoc. specialize (K1 rs). revert K1. apply w_ext. intros b p0 a0. intros Q. apply w_assoc. revert Q. apply w_ext. intros f0 p1 a1 Q. apply w_assoc. revert Q. apply w_ext. intros w0 p2 a2 Q. apply w_assoc. revert Q. apply w_ext.
        intros b0 p3 a3 Q. apply w_assoc. revert Q. apply w_ext. intros g0 p4 a4 Q. apply w_assoc. revert Q. apply w_ext. intros hv0 p5 a5 Q. apply w_assoc. revert Q. apply w_ext. intros b1 p6 a6 Q. apply w_assoc. revert Q. apply w_ext. intros o0 p7 a7 Q. exact Q. }
      wstep1. destruct r as [l|].
      + destruct Ir as ((t & r & E & E1) & Ir). apply w_maybe_no'; [rewrite E; exact E1|]. lred. apply w_assoc, w_assoc. change (parseResults_ n (parseSubExpr n)) with (resultLoop n n []).
        wuse (Ir n n [] ltac:(lens) ltac:(lens)); [exact Ff|]. intros x _. cbn [abind]. apply K0.
      + cbn in Ir. subst tr. norm_toks. apply w_maybe_yes; [reflexivity|]. lred. apply w_assoc. cbn [abind]. exact (K0 None).
    (* queries *)
    - intros s ts A I2 n Hn B h p rest F K. unfold optionalSubquery_. norm_toks. wsteps. change (parseSelect_ n (parseSubExpr n) (parseFromItem n)) with (parseSelect n). wuse (I2 n ltac:(lens)); [exact F|]. intros x _. wsteps. fin. eauto.
    - intros l ts A I2 n Hn B h p rest F K. unfold optionalSubquery_. norm_toks. wsteps. change (parseValues_ n (parseSubExpr n)) with (valuesLoop n n []). wuse (I2 n n [] ltac:(lens) ltac:(lens) Logic.I); [eapply next_mono; [exact F|]; intros t G; each G; discriminate|]. intros x _. wsteps. fin. eauto.
    - intros s ts A n Hn B h p rest F K. unfold optionalSubquery_. norm_toks. wsteps. wuse (w_show s ts A); [exact F|]. intros x _. wsteps. fin. eauto.
    - intros tn ts A n Hn B h p rest F K. unfold optionalSubquery_. norm_toks. wsteps. wuse (reads_takes id name over_ _ _ _ _ (reads_tableName id name tn ts A)); [eapply next_mono; [exact F|]; intros t G; each G; discriminate|]. intros x _. wsteps. fin. eauto.
    (* from operands *)
    - intros tn a ts ts' A A'. assert (E : exists i r, ts = KIdent i :: r) by (destruct A; eauto). destruct E as (i & r & E). split; [rewrite E; reflexivity|]. intros n Hn B h p rest F K.
      unfold fromOperand_. norm_toks. wsteps. apply w_maybe_no'; [rewrite E; discriminate|]. lred.
      unfold parseTableAlias. wsteps. wuse (reads_takes id name over_ _ _ _ _ (reads_tableName id name tn ts A)); [apply (alias_next _ a); [exact A'|discriminate|discriminate|eapply next_mono; [exact F|]; intros t G; each G; discriminate]|].
      intros x _. wsteps. apply w_maybe_no'; [apply (alias_next _ a); [exact A'|discriminate|discriminate|eapply next_mono; [exact F|]; intros t G; each G; discriminate]|]. lred. wsteps.
      wuse (reads_takes id name over_ _ _ _ _ (reads_optAlias id name a ts' A')); [eapply next_mono; [exact F|]; intros t G; each G; split; (exact Logic.I || reflexivity)|]. intros y _. wsteps. fin.
    - intros tn ix a ts ts' A A'. assert (E : exists i r, ts = KIdent i :: r) by (destruct A; eauto). destruct E as (i & r & E). split; [rewrite E; reflexivity|]. intros n Hn B h p rest F K.
      unfold fromOperand_. norm_toks. wsteps. apply w_maybe_no'; [rewrite E; discriminate|]. lred.
      unfold parseTableAlias. wsteps. wuse (reads_takes id name over_ _ _ _ _ (reads_tableName id name tn ts A)); [discriminate|]. intros x _. wsteps.
      wuse (reads_takes id name over_ _ _ _ _ (reads_optAlias id name a ts' A')); [eapply next_mono; [exact F|]; intros t G; each G; split; (exact Logic.I || reflexivity)|]. intros y _. wsteps. fin.
    - intros s a l ts ts' ts'' A I2 A' A''. split; [reflexivity|]. intros n Hn B h p rest F K. unfold fromOperand_. norm_toks. wsteps. wuse (I2 n ltac:(lens)); [cbn; tauto|]. intros x [s0 ->]. unfold parseFromStmt_. wsteps.
      wuse (reads_takes id name over_ _ _ _ _ (reads_someAlias id name true a ts' A')); [destruct A''; [cbn [app]; eapply next_mono; [exact F|trivial]|exact Logic.I]|]. intros x _.
      wuse (reads_takes id name over_ _ _ _ _ (reads_columnAliases id name n l ts'' A'' ltac:(lens))); [eapply next_mono; [exact F|]; intros t G; each G; discriminate|]. intros y _. wsteps. fin.
    - intros f ts A [I1 I2]. split; [reflexivity|]. intros n Hn B h p rest F K. unfold fromOperand_. norm_toks. wsteps. unfold optionalSubquery_.
      assert (Q : forall k, In k [kSELECT; kVALUES; kSHOW; kTABLE] -> next (no_word [k]) (ts ++ KRune 41 :: rest)).
      { intros k Hk. apply next_app. eapply next_mono; [exact I1|]. intros t. apply is_reserved_sub. intros x [<-|[]]. exact Hk. }
      wsteps. do 4 (apply w_optional_no'; [apply Q; cbn; tauto|]; lred; wsteps).
      wuse (I2 n ltac:(lens)); [do 3 left; cbn; tauto|]. intros x _. wsteps. fin.
    (* from items *)
    - intros f ts A [I1 I2]. split; [exact I1|]. intros [|n] Hn B h p rest F K; [lia|]. apply w_fromItem. wuse (I2 n ltac:(lens)); [eapply next_mono; [exact F|]; intros t G; now left|]. intros x _.
      unfold joinRest, parseJoinType_. destruct rest as [|t rest]; [contradiction|]. cbn [next] in F.
      assert (Q : forall k, In k [kJOIN; kINNER; kLEFT; kRIGHT; kFULL; kCROSS] -> is_reserved t [k] = false) by (intros k [<-|[<-|[<-|[<-|[<-|[<-|[]]]]]]]; each F; reflexivity).
      wsteps. do 6 (apply w_optional_no; [apply Q; cbn; tauto|]; lred; wsteps). fin.
    - intros b l r ts ts' A [I1 I2] A' [J1 J2]. split; [now apply next_app|]. intros [|n] Hn B h p rest F K; [lia|]. apply w_fromItem. norm_toks. wuse (I2 n ltac:(lens)); [right; cbn; tauto|]. intros x _.
      unfold joinRest, parseJoinType_. wsteps. wuse (J2 n ltac:(lens)); [eapply next_mono; [exact F|]; intros t [G|[G|[G _]]]; [now left|right; now left|discriminate]|]. intros y _.
      wsteps. apply w_optional_no'; [eapply next_mono; [exact F|]; intros t G; each G; reflexivity|]. lred. wsteps.
      apply w_optional_no'; [eapply next_mono; [exact F|]; intros t G; each G; reflexivity|]. lred. wsteps. fin.
    - intros jt l r e ts tj ts' te A [I1 I2] W A' [J1 J2] A'' K. split; [now apply next_app|]. intros [|n] Hn B h p rest F KK; [lia|]. apply w_fromItem. norm_toks.
      wuse (I2 n ltac:(lens)); [destruct W; right; cbn; tauto|]. intros x _.
      unfold joinRest, parseJoinType_. destruct W; norm_toks; wsteps; (wuse (J2 n ltac:(lens)); [right; right; tauto|]); intros y _; wsteps; (wuse (K n ltac:(lens)); [eapply item_expr; exact F|]); intros z _; wsteps; fin.
    - intros jt l r c ts tj ts' tc A [I1 I2] W A' [J1 J2] A'' N. split; [now apply next_app|]. intros [|n] Hn B h p rest F K; [lia|]. apply w_fromItem. norm_toks.
      wuse (I2 n ltac:(lens)); [destruct W; right; cbn; tauto|]. intros x _.
      unfold joinRest, parseJoinType_. destruct W; norm_toks; wsteps; (wuse (J2 n ltac:(lens)); [right; right; tauto|]); intros y _; wsteps; (wuse (reads_takes id name over_ _ _ _ _ (reads_distinct id name n c tc A'' N ltac:(lens))); [exact Logic.I|]); intros z <-; wsteps; (destruct c as [|c0 c]; [inversion A''|]); wsteps; fin.
    - intros b f f' ts ts' A [I1 I2] A' [J1 J2]. split; [now apply next_app|]. intros n Hn B h p rest F K. unfold parseFromList_. norm_toks. wstep1.
      wuse (I2 n ltac:(lens)); [eapply next_mono; [exact (J1 rest F)|]; intros t [G|[G|[G _]]]; [now left|right; now left|discriminate]|]. intros x _.
      wuse (J2 n n x ltac:(lens) ltac:(lens)); [exact F|]. intros y _. fin.
    - intros f. split; [intros rest F; eapply next_mono; [exact F|]; intros t G; now left|]. intros n [|m] f0 Hn Hm B h p rest F K; [lia|]. unfold listLoop. norm_toks. wsteps.
      apply w_maybe_no'; [eapply next_mono; [exact F|]; intros t G; each G; discriminate|]. lred. wsteps. fin.
    - intros b f r f' ts ts' A [I1 I2] A' [J1 J2]. split; [intros rest F; right; now left|]. intros n [|m] f0 Hn Hm B h p rest F K; [lia|]. unfold listLoop. norm_toks. wsteps.
      wuse (I2 n ltac:(lens)); [eapply next_mono; [exact (J1 rest F)|]; intros t [G|[G|[G _]]]; [now left|right; now left|discriminate]|]. intros x _. wsteps.
      wuse (J2 n m (FromJoin f0 x CrossJoin None []) ltac:(lens) ltac:(lens)); [exact F|]. intros y _. fin.
  Qed.
End ExactExpr.
