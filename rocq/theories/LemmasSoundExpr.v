(** Expressions and queries: what has been read. *)

From Verif Require Import ModelParser SpecParser SpecAccepts LemmasBase LemmasListRun LemmasParserSafe LemmasAdjust LemmasRegroup LemmasSound LemmasSoundNames.

(** What could follow an operand. *)
Definition infix_tok (t : tok) : bool :=
  match binaryOps (rune_of t) with Some _ => true | None => is_reserved t [kAND; kOR] end.
Definition continues (a : list tok) : bool :=
  match a with
  | [] => false
  | t :: r => infix_tok t || is_reserved t [kIN; kIS] || (is_reserved t [kNOT] && match r with t2 :: _ => is_reserved t2 [kIN] | [] => false end)
  end.

Section Nested.
  Variable id : bytes -> Z.
  Variable name : Z -> bytes.
  Local Notation sound := (sound id name).
  Local Notation R := KReserved.
  Local Notation I := KIdent.
  Local Notation Comma := (KRune 44).
  Local Notation LP := (KRune 40).
  Local Notation RP := (KRune 41).
  Variable n : nat.
  Variable subExpr : unit -> act expr.
  Variable fromItem : unit -> act fromitem.
  Hypothesis HS : sound (subExpr tt) (fun e ts a => exists c, a_sub id name c e ts /\ (c = false -> continues a = false)).
  Hypothesis HF : sound (fromItem tt) (fun f ts a => exists b, a_from_item id name b f ts /\ (b = true -> not_next (fun t => is_reserved t [kON; kUSING]) a)).

  Local Notation a_sub := (a_sub id name).
  Local Notation a_whole := (a_whole id name).
  Local Notation a_wholes := (a_wholes id name).
  Local Notation a_query := (a_query id name).

  Lemma S_expr_ : sound (parseExpr_ subExpr) (fun e ts _ => a_whole e ts).
  Proof.
    intros p a C. unfold parseExpr_. use_ HS as e0 ts a1 (c & H & _). unfold adjust. destruct (adjustPrecedence (8 * expr_size e0) e0) as [e|] eqn:E; [|exact Logic.I].
    destruct (adjust_any (expr_size e0) e0 (le_n _)) as (e' & G & W & _ & E').
    rewrite E' in E by lia. injection E as ->. fin ts. apply (aw_intro id name c e0); [exact H|exact G|exact W|].
    intros RR. destruct (adjust_tight e0 RR) as (e2 & T & _ & E2). rewrite E' in E2 by lia. now injection E2 as <-.
  Qed.

  (** ** Lists of expressions *)

  Definition exprs_go (l : list expr) (ts : list tok) (l' : list expr) : Prop := exists e t, a_whole e t /\ ts = t ++ [Comma] /\ l' = l ++ [e].
  Definition exprs_stop (fin : list tok) (l : list expr) (ts : list tok) (l' : list expr) (_ : list tok) : Prop := exists e t, a_whole e t /\ ts = t ++ fin /\ l' = l ++ [e].
  Lemma exprs_looped fin l ts x a : looped exprs_go (exprs_stop fin) l ts x a -> exists l' ts', x = l ++ l' /\ ts = ts' ++ fin /\ a_wholes l' ts'.
  Proof.
    induction 1 as [s ts x a (e & t & H & -> & ->)|s ts s' ts' x a (e & t & H & -> & ->) HL (l' & ts1 & -> & -> & K)].
    - exists [e], t. repeat split. now constructor.
    - exists (e :: l'), (t ++ Comma :: ts1). split; [lists|]. split; [lists|]. now constructor.
  Qed.

  Lemma S_row : sound (aloop n (fun row =>
        let+ e := parseExpr_ subExpr in
        let row := row ++ [e] in
        let+ r := expectTokens [tComma; tRParen] in
        if r =? tRParen then ARet (inr row) else ARet (inl row)) []) (fun x ts _ => exists ts', ts = ts' ++ [RP] /\ a_wholes x ts').
  Proof.
    apply sound_none. eapply sound_mono; [|eapply s_loop with (Go := exprs_go) (Stop := exprs_stop [RP])].
    - intros x ts a H. destruct (exprs_looped _ _ _ _ _ H) as (l' & ts' & -> & -> & K). now exists ts'.
    - intros s. apply sound_any. intros p a C. cbn beta. use_ S_expr_ as e ts a1 H1. st; cbn [Z.eqb Pos.eqb].
      + fin (ts ++ [Comma]). now exists e, ts.
      + fin (ts ++ [RP]). now exists e, ts.
  Qed.

  Definition same_length (l : list (list expr)) (row : list expr) : Prop := match l with [] => True | r0 :: _ => length row = length r0 end.
  Definition rows_go (l : list (list expr)) (ts : list tok) (l' : list (list expr)) : Prop :=
    exists row t, a_wholes row t /\ ts = LP :: t ++ [RP; Comma] /\ l' = l ++ [row] /\ same_length l row.
  Definition rows_stop (l : list (list expr)) (ts : list tok) (s : stmt) (_ : list tok) : Prop :=
    exists row t, a_wholes row t /\ ts = LP :: t ++ [RP] /\ s = SValues (l ++ [row]) /\ same_length l row.
  Lemma same_length_app l row row' : same_length (l ++ [row]) row' -> same_length l row -> same_length l row'.
  Proof. destruct l as [|r0 l]; cbn; [auto|]. congruence. Qed.
  Lemma same_length_self l row row' : same_length (l ++ [row]) row' -> same_length l row -> length row' = length row.
  Proof. destruct l as [|r0 l]; cbn; congruence. Qed.
  Lemma rows_looped l ts s a : looped rows_go rows_stop l ts s a -> exists l', s = SValues (l ++ l') /\ a_rows id name l' ts /\ Forall (same_length l) l'.
  Proof.
    induction 1 as [s ts x a (row & t & H & -> & -> & K)|s ts s' ts' x a (row & t & H & -> & -> & K) HL (l' & -> & Hr & F)].
    - exists [row]. split; [reflexivity|]. split; [now constructor|]. now constructor.
    - exists (row :: l'). split; [now rewrite <- app_assoc|]. split.
      + replace ((LP :: t ++ [RP; Comma]) ++ ts') with (LP :: t ++ RP :: Comma :: ts') by lists. constructor; auto.
        eapply Forall_impl; [|exact F]. cbn. intros row' H'. eapply same_length_self; eassumption.
      + constructor; [exact K|]. eapply Forall_impl; [|exact F]. cbn. intros row' H'. eapply same_length_app; eassumption.
  Qed.
  Lemma S_values_ : sound (parseValues_ n subExpr) (fun x ts _ => exists l, x = SValues l /\ a_rows id name l ts).
  Proof.
    apply sound_none. eapply sound_mono; [|eapply s_loop with (Go := rows_go) (Stop := rows_stop)].
    - intros x ts a H. destruct (rows_looped _ _ _ _ H) as (l' & -> & K & _). now exists l'.
    - intros s. apply sound_any. intros p a C. st. use_ S_row as row t1 a1 (t & -> & H1).
      destruct (match s with [] => false | r0 :: _ => _ end) eqn:E; [exact Logic.I|].
      assert (K : same_length s row). { destruct s; [exact Logic.I|]. cbn. apply negb_false_iff in E. apply Nat.eqb_eq in E. now symmetry. }
      st.
      + fin (LP :: t ++ [RP; Comma]). now exists row, t.
      + fin (LP :: t ++ [RP]). now exists row, t.
  Qed.

  Lemma S_groupBy : sound (parseGroupBy_ n subExpr) (fun x ts _ => a_wholes x ts).
  Proof.
    apply sound_none. eapply sound_mono; [|eapply s_loop with (Go := exprs_go) (Stop := exprs_stop [])].
    - intros x ts a H. destruct (exprs_looped _ _ _ _ _ H) as (l' & ts' & -> & -> & K). now rewrite app_nil_r.
    - intros s. apply sound_any. intros p a C. cbn beta. use_ S_expr_ as e ts a1 H1. st.
      + fin (ts ++ [Comma]). now exists e, ts.
      + fin ts. exists e, ts. now rewrite app_nil_r.
  Qed.

  Definition order_go (l : list (expr * bool)) (ts : list tok) (l' : list (expr * bool)) : Prop :=
    exists i r t, direction r t /\ ts = I i :: t ++ [Comma] /\ l' = l ++ [(Ref [i], r)].
  Definition order_stop (l : list (expr * bool)) (ts : list tok) (l' : list (expr * bool)) (_ : list tok) : Prop :=
    exists i r t, direction r t /\ ts = I i :: t /\ l' = l ++ [(Ref [i], r)].
  Lemma order_looped l ts x a : looped order_go order_stop l ts x a -> exists l', x = l ++ l' /\ order_columns l' ts.
  Proof.
    induction 1 as [s ts x a (i & r & t & H & -> & ->)|s ts s' ts' x a (i & r & t & H & -> & ->) HL (l' & -> & K)].
    - exists [(Ref [i], r)]. split; [reflexivity|]. now constructor.
    - exists ((Ref [i], r) :: l'). split; [lists|]. replace ((I i :: t ++ [Comma]) ++ ts') with (I i :: t ++ Comma :: ts') by lists. now constructor.
  Qed.
  Lemma S_orderBy : sound (parseOrderBy_ n) (fun x ts _ => order_columns x ts).
  Proof.
    apply sound_none. eapply sound_mono; [|eapply s_loop with (Go := order_go) (Stop := order_stop)].
    - intros x ts a H. now destruct (order_looped _ _ _ _ H) as (l' & -> & K).
    - intros s. apply sound_any. clear. intros p a C. st. st.
      + one_of H. st. st.
        * fin [I i; R kDESC; Comma]. exists i, true, [R kDESC]. repeat split; auto using direction.
        * fin [I i; R kDESC]. exists i, true, [R kDESC]. repeat split; auto using direction.
      + st. st.
        * one_of H. st. st.
          -- fin [I i; R kASC; Comma]. exists i, false, [R kASC]. repeat split; auto using direction.
          -- fin [I i; R kASC]. exists i, false, [R kASC]. repeat split; auto using direction.
        * st. st.
          -- fin [I i; Comma]. exists i, false, []. repeat split; auto using direction.
          -- fin [I i]. exists i, false, []. repeat split; auto using direction.
  Qed.

  (** ** FROM *)

  Definition from_go (f : fromitem) (ts : list tok) (f' : fromitem) : Prop :=
    exists b r t, a_from_item id name b r t /\ ts = Comma :: t /\ f' = FromJoin f r CrossJoin None [].
  Definition from_stop (f : fromitem) (ts : list tok) (f' : fromitem) (_ : list tok) : Prop := ts = [] /\ f' = f.
  Lemma S_fromList : sound (parseFromList_ n fromItem) (fun f ts _ => a_from_list id name f ts).
  Proof.
    intros p a C. unfold parseFromList_. use_ HF as f ts a1 (b & H & _).
    assert (K : sound (aloop n (fun fi => let+ comma := maybeToken tComma in
      if comma then let+ r := fromItem tt in ARet (inl (FromJoin fi r CrossJoin None [])) else ARet (inr fi)) f) (fun x ts _ => a_from_more id name f x ts)).
    { apply sound_none. eapply sound_mono; [|eapply s_loop with (Go := from_go) (Stop := from_stop)].
      - clear. intros x ts a H. induction H as [s ts x a (-> & ->)|s ts s' ts' x a (b & r & t & H & -> & ->) HL IH]; [constructor|]. cbn [app]. econstructor; eassumption.
      - intros s. apply sound_any. clear - HF. intros p a C. st.
        + use_ HF as fi ts a1 (b & H & _). fin (Comma :: ts). now exists b, fi, ts.
        + fin (@nil tok). now split. }
    use_ K as f' ts' a2 H2. fin (ts ++ ts'). econstructor; eassumption.
  Qed.

  (** ** The results of a query *)

  Definition results_go (l : list (selectresult expr)) (ts : list tok) (l' : list (selectresult expr)) : Prop :=
    exists r t, a_result id name r t /\ ts = t ++ [Comma] /\ l' = l ++ [r].
  Definition results_stop (l : list (selectresult expr)) (ts : list tok) (l' : list (selectresult expr)) (_ : list tok) : Prop :=
    exists r, a_result id name r ts /\ l' = l ++ [r].
  Lemma results_looped l ts x a : looped results_go results_stop l ts x a -> exists l', x = l ++ l' /\ a_results id name l' ts.
  Proof.
    induction 1 as [s ts x a (r & H & ->)|s ts s' ts' x a (r & t & H & -> & ->) HL (l' & -> & K)].
    - exists [r]. split; [reflexivity|]. now constructor.
    - exists (r :: l'). split; [lists|]. rewrite <- app_assoc. now constructor.
  Qed.
  Lemma S_results : sound (parseResults_ n subExpr) (fun x ts _ => a_results id name x ts).
  Proof.
    apply sound_none. eapply sound_mono; [|eapply s_loop with (Go := results_go) (Stop := results_stop)].
    - intros x ts a H. now destruct (results_looped _ _ _ _ H) as (l' & -> & K).
    - intros s. apply sound_any. intros p a C. cbn beta zeta.
      assert (KX : forall t r, proper t -> wpl id name (unscan_ ;+
          (let+ e := parseExpr_ subExpr in
           let+ alias := parseAlias false in
           let+ comma := maybeToken tComma in
           if comma then ARet (inl (s ++ [ExprResult e alias])) else ARet (inr (s ++ [ExprResult e alias])))) (t :: p) r
         (read_back p (t :: r) (fun x ts a => match x with inl s' => results_go s ts s' | inr y => results_stop s ts y a end))).
      { intros t r _. st. generalize (t :: r). intros a0. use_ S_expr_ as e ts a1 H1. use_ S_alias as al ts2 a2 H2. st.
        - fin ((ts ++ ts2) ++ [Comma]). exists (ExprResult e al), (ts ++ ts2). split; [now constructor|]. now split.
        - fin (ts ++ ts2). exists (ExprResult e al). split; [now constructor|reflexivity]. }
      st. destruct t as [| | |i| | | | | | |]; try (now apply KX). assert (C' : clean (I i :: p)) by reflexivity. st.
      + st.
        * st.
          -- fin ([I i; KRune tDot; KRune tStar] ++ [Comma]). exists (TableResult i), [I i; KRune tDot; KRune tStar]. split; [constructor|]. now split.
          -- fin [I i; KRune tDot; KRune tStar]. exists (TableResult i). split; [constructor|reflexivity].
        * st. now apply KX.
      + now apply KX.
  Qed.

  Lemma S_optionalExpr k : sound (optionalExpr_ subExpr k) (fun x ts _ => a_opt_whole id name k x ts).
  Proof.
    intros p a C. unfold optionalExpr_. st.
    - one_of H. use_ S_expr_ as e ts a1 H1. fin (R k0 :: ts). now constructor.
    - fin (@nil tok). constructor.
  Qed.

  Lemma S_select_ : sound (parseSelect_ n subExpr fromItem) (fun x ts _ => a_select id name x ts).
  Proof.
    assert (KR : sound (let+ star := maybeToken tStar in (if star then ARet None else (let+ l := parseResults_ n subExpr in ARet (Some l)))) (fun x ts _ => a_opt_results id name x ts)).
    { intros p a C. st; [fin [KRune tStar]; constructor|]. use_ S_results as l ts a1 H1. fin ts. now constructor. }
    assert (KF : sound (let+ b := optionalReserved [kFROM] in (if b then (let+ f := parseFromList_ n fromItem in ARet (Some f)) else ARet None)) (fun x ts _ => a_opt_from id name x ts)).
    { intros p a C. st; [one_of H; use_ S_fromList as l ts a1 H1; fin (R kFROM :: ts); now constructor|]. fin (@nil tok). constructor. }
    assert (KG : sound (let+ b := optionalReserved [kGROUP] in (if b then expectReserved [kBY] ;+ parseGroupBy_ n subExpr else ARet [])) (fun x ts _ => a_opt_group id name x ts)).
    { intros p a C. st; [one_of H; st; one_of H; use_ S_groupBy as l ts a1 H1; fin (R kGROUP :: R kBY :: ts); now constructor|]. fin (@nil tok). constructor. }
    assert (KO : sound (let+ b := optionalReserved [kORDER] in (if b then expectReserved [kBY] ;+ parseOrderBy_ n else ARet [])) (fun x ts _ => opt_order x ts)).
    { intros p a C. st; [one_of H; st; one_of H; use_ S_orderBy as l ts a1 H1; fin (R kORDER :: R kBY :: ts); now constructor|]. fin (@nil tok). constructor. }
    intros p a C. unfold parseSelect_.
    assert (AS : forall A D (g : act A) (h : A -> act D) (k : D -> act stmt) p a Q, wpl id name (let+ y := (let+ x := g in h x) in k y) p a Q -> wpl id name (let+ x := g in let+ y := h x in k y) p a Q).
    { clear. intros A D g h k p a Q. revert p a. induction g as [x| | | |kk IH|kk IH|kk IH|s kk IH|i kk IH|l kk IH|kk IH]; intros p a; cbn [wpl abind]; try tauto.
      - intros [H1 H2]. split; [exact H1|]. destruct a; [exact H2|]. intros Hp. now apply IH, H2.
      - destruct p; [easy|apply IH].
      - destruct p; [easy|apply IH].
      - apply IH.
      - intros [H1 H]. split; [exact H1|now apply IH].
      - intros H b. apply IH, H. }
    apply AS. use_ KR as r tr a1 H1. apply AS. use_ KF as f tf a2 H2. use_ S_optionalExpr as w tw a3 H3. apply AS. use_ KG as g tg a4 H4.
    use_ S_optionalExpr as h th a5 H5. apply AS. use_ KO as o to a6 H6. fin (tr ++ tf ++ tw ++ tg ++ th ++ to). now constructor.
  Qed.

  Lemma S_optionalSubquery : sound (optionalSubquery_ n subExpr fromItem) (fun x ts _ => match x with Some s => a_query s ts | None => ts = [] end).
  Proof.
    intros p a C. unfold optionalSubquery_. st; [one_of H; use_ S_select_ as s ts a1 H1; fin (R kSELECT :: ts); now constructor|].
    st; [one_of H; use_ S_values_ as s ts a1 (l & -> & H1); fin (R kVALUES :: ts); now constructor|].
    st; [one_of H; use_ S_show as s ts a1 H1; fin (R kSHOW :: ts); now constructor|].
    st; [one_of H; use_ S_tableName as tn ts a1 H1; fin (R kTABLE :: ts); now constructor|].
    fin (@nil tok). reflexivity.
  Qed.
  Lemma S_subquery : sound (parseSubquery_ n subExpr fromItem) (fun x ts _ => exists t, ts = LP :: t ++ [RP] /\ a_query x t).
  Proof.
    intros p a C. unfold parseSubquery_. st. use_ S_optionalSubquery as o ts a1 H1. destruct o as [s|]; [|exact Logic.I]. st. fin (LP :: ts ++ [RP]). now exists ts.
  Qed.

  (** ** Operands *)

  Definition args_go (l : list expr) (ts : list tok) (l' : list expr) : Prop := exists c e t, a_sub c e t /\ ts = t ++ [Comma] /\ l' = l ++ [e].
  Definition args_stop (l : list expr) (ts : list tok) (l' : list expr) (_ : list tok) : Prop := exists c e t, a_sub c e t /\ ts = t ++ [RP] /\ l' = l ++ [e].
  Lemma args_looped l ts x a : looped args_go args_stop l ts x a -> exists l' ts', x = l ++ l' /\ ts = ts' ++ [RP] /\ a_args id name l' ts'.
  Proof.
    induction 1 as [s ts x a (c & e & t & H & -> & ->)|s ts s' ts' x a (c & e & t & H & -> & ->) HL (l' & ts1 & -> & -> & K)].
    - exists [e], t. split; [reflexivity|]. split; [reflexivity|]. econstructor; eassumption.
    - exists (e :: l'), (t ++ Comma :: ts1). split; [lists|]. split; [lists|]. econstructor; eassumption.
  Qed.
  Lemma S_call f : sound (parseCall_ n subExpr f) (fun e ts _ => a_operand id name true e (I f :: LP :: ts)).
  Proof.
    assert (KA : sound (aloop n (fun args =>
          let+ e := subExpr tt in
          let args := args ++ [e] in
          let+ paren := maybeToken tRParen in
          if paren then ARet (inr args) else expectTokens [tComma] ;+ ARet (inl args)) []) (fun x ts _ => exists ts', ts = ts' ++ [RP] /\ a_args id name x ts')).
    { apply sound_none. eapply sound_mono; [|eapply s_loop with (Go := args_go) (Stop := args_stop)].
      - intros x ts a H. destruct (args_looped _ _ _ _ H) as (l' & ts' & -> & -> & K). now exists ts'.
      - intros s. apply sound_any. intros p a C. cbn beta. use_ HS as e ts a1 (c & H & _). st.
        + fin (ts ++ [RP]). now exists c, e, ts.
        + st. fin (ts ++ [Comma]). now exists c, e, ts. }
    assert (KC : forall p a, clean p -> wpl id name (let+ args := aloop n (fun args =>
          let+ e := subExpr tt in
          let args := args ++ [e] in
          let+ paren := maybeToken tRParen in
          if paren then ARet (inr args) else expectTokens [tComma] ;+ ARet (inl args)) [] in ARet (SExpr f args)) p a (read_back p a (fun e ts _ => a_operand id name true e (I f :: LP :: ts)))).
    { intros p a C. use_ KA as l ts a1 (ts' & -> & H1). fin (ts' ++ [RP]). now constructor. }
    intros p a C. unfold parseCall_. st; [fin [RP]; constructor|]. destruct (f =? iCOUNT) eqn:E.
    - apply Z.eqb_eq in E. subst f. st; [|now apply KC]. st. fin [KRune tStar; RP]. constructor.
    - st. now apply KC.
  Qed.

  Definition dots_go (l : list Z) (ts : list tok) (l' : list Z) : Prop := exists i, ts = [KRune tDot; I i] /\ l' = l ++ [i].
  Definition dots_stop (l : list Z) (ts : list tok) (l' : list Z) (_ : list tok) : Prop := ts = [] /\ l' = l.
  Lemma dots_looped l ts x a : looped dots_go dots_stop l ts x a -> exists l', x = l ++ l' /\ dots l' ts.
  Proof.
    induction 1 as [s ts x a (-> & ->)|s ts s' ts' x a (i & -> & ->) HL (l' & -> & K)].
    - exists []. split; [now rewrite app_nil_r|constructor].
    - exists (i :: l'). split; [lists|]. cbn [app]. now constructor.
  Qed.
  Lemma S_ref i p a : wpl id name (parseRef_ n) (I i :: p) a (read_back (I i :: p) a (fun e ts _ => a_operand id name true e (I i :: ts))).
  Proof.
    unfold parseRef_. st. assert (C : clean (I i :: p)) by reflexivity. cbn [ident_of].
    assert (K : sound (aloop n (fun ids =>
      let+ dot := maybeToken tDot in
      if dot then
        let+ id := expectIdentifier in
        ARet (inl (ids ++ [id]))
      else ARet (inr ids)) [i]) (fun x ts _ => exists l, x = i :: l /\ dots l ts)).
    { apply sound_none. eapply sound_mono; [|eapply s_loop with (Go := dots_go) (Stop := dots_stop)].
      - clear. intros x ts a H. destruct (dots_looped _ _ _ _ H) as (l' & -> & K). now exists l'.
      - intros s. apply sound_any. clear. intros p a C. st.
        + st. fin [KRune tDot; I i]. now exists i.
        + fin (@nil tok). now split. }
    use_ K as x ts a1 (l & -> & H1). fin ts. now constructor.
  Qed.

  Lemma S_operand : sound (parseOperand_ n subExpr fromItem) (fun e ts a => exists o, a_operand id name o e ts /\ (o = false -> continues a = false)).
  Proof.
    intros p a C. unfold parseOperand_. st.
    destruct t as [| |b|i|k|s|l|i|f|i|x]; cbn [rune_of Z.eqb Pos.eqb]; try (now st).
    - assert (C' : clean (I i :: p)) by reflexivity. st.
      + use_ S_call as e ts a1 H1. fin (I i :: LP :: ts). now exists true.
      + eapply wpl_mono; [|apply S_ref]. intros e p' a' (ts & -> & -> & C1 & H1). fin (I i :: ts). now exists true.
    - assert (C' : clean (R k :: p)) by reflexivity. clear H. assert (D : true = false -> continues r = false) by discriminate.
      destruct (k =? kTRUE) eqn:E1; [apply Z.eqb_eq in E1; subst k; fin [R kTRUE]; exists true; split; [constructor|exact D]|].
      destruct (k =? kFALSE) eqn:E2; [apply Z.eqb_eq in E2; subst k; fin [R kFALSE]; exists true; split; [constructor|exact D]|].
      destruct (k =? kNULL) eqn:E3; [apply Z.eqb_eq in E3; subst k; fin [R kNULL]; exists true; split; [constructor|exact D]|]. clear D.
      destruct (k =? kNOT) eqn:E4; [apply Z.eqb_eq in E4; subst k; use_ HS as e ts a1 (c & H1 & H2); fin (R kNOT :: ts); exists c; split; [now constructor|exact H2]|].
      destruct (k =? kEXISTS) eqn:E5; [|now st]. apply Z.eqb_eq in E5. subst k. use_ S_subquery as s ts a1 (t & -> & H1). fin (R kEXISTS :: LP :: t ++ [RP]). exists true. split; [now constructor|discriminate].
    - fin [KString s]. exists true. split; [constructor|discriminate].
    - fin [KBytes l]. exists true. split; [constructor|discriminate].
    - fin [KInteger i]. exists true. split; [constructor|discriminate].
    - fin [KFloat f]. exists true. split; [constructor|discriminate].
    - destruct (x =? tMinus) eqn:E1.
      { apply Z.eqb_eq in E1. subst x. assert (C' : clean (KRune tMinus :: p)) by reflexivity. use_ HS as e ts a1 (c & H1 & H2). fin (KRune tMinus :: ts). exists c. split; [now constructor|exact H2]. }
      destruct (x =? tLParen) eqn:E2; [|now st]. apply Z.eqb_eq in E2. subst x. assert (C' : clean (LP :: p)) by reflexivity.
      use_ S_optionalSubquery as o ts a1 H1. destruct o as [s|].
      + st. st. destruct (rune_of t =? tRParen) eqn:E; [|now st]. apply Z.eqb_eq in E. apply (rune_is id name) in E; [|clear; cbn; lia]. subst t. fin (LP :: ts ++ [RP]). exists true. split; [now constructor|discriminate].
      + subst ts. st. cbn [rev app] in *. use_ HS as e ts a2 (c & H2 & _). st. st. destruct (rune_of t =? tRParen) eqn:E; [|now st]. apply Z.eqb_eq in E. apply (rune_is id name) in E; [|clear; cbn; lia]. subst t. fin (LP :: ts ++ [RP]). exists true. split; [econstructor; eassumption|discriminate].
  Qed.

  (** ** Operators *)

  Lemma binary_in x op b : binaryOps x = Some (op, b) -> In (KRune x, op, b) infix_tokens.
  Proof.
    unfold binaryOps. repeat match goal with |- context[if ?y =? ?z then _ else _] => destruct (y =? z) eqn:?E; [match goal with E : (_ =? _) = true |- _ => apply Z.eqb_eq in E; subst x end; intros [= <- <-]; cbn; tauto|] end. discriminate.
  Qed.
  Lemma s_op {A} (h : option (sqlop * bool) -> act A) p a Q : clean p ->
    (forall t op b r, a = t :: r -> In (t, op, b) infix_tokens -> clean (t :: p) -> wpl id name (h (Some (op, b))) (t :: p) r Q) ->
    (not_next infix_tok a -> wpl id name (h None) p a Q) -> wpl id name (abind optionalBinaryOp h) p a Q.
  Proof.
    intros C H N. unfold optionalBinaryOp. st. st. destruct (binaryOps (rune_of t)) as [[op b]|] eqn:E.
    - destruct t; try discriminate E. apply binary_in in E. st. now apply H.
    - destruct (is_reserved t [kAND]) eqn:E1.
      { apply is_reserved_in in E1. destruct E1 as (k & -> & K). one_of K. st. apply H; [reflexivity| |reflexivity]. cbn. tauto. }
      destruct (is_reserved t [kOR]) eqn:E2.
      { apply is_reserved_in in E2. destruct E2 as (k & -> & K). one_of K. st. apply H; [reflexivity| |reflexivity]. cbn. tauto. }
      st. st. st. apply N. cbn. unfold infix_tok. rewrite E. destruct t; try reflexivity. cbn in *. rewrite orb_false_r in *. now rewrite E1.
  Qed.

  Lemma S_postfix o e ts0 p a : clean p -> a_operand id name o e ts0 -> (o = false -> continues a = false) -> not_next infix_tok a ->
    wpl id name (parsePostfix_ n subExpr fromItem e) p a (read_back p a (fun x ts a => exists c, a_sub c x (ts0 ++ ts) /\ (c = false -> continues a = false))).
  Proof.
    intros C H O N. unfold parsePostfix_. st.
    - assert (D : k <> kNOT -> o = true). { intros K. destruct o; [reflexivity|]. specialize (O eq_refl). exfalso. one_of H0; try contradiction; discriminate O. }
      st. cbn [ident_of]. one_of H0; cbn [Z.eqb Pos.eqb].
      + rewrite D in H by discriminate. use_ S_subquery as s ts a1 (t & -> & H1). fin (R kIN :: LP :: t ++ [RP]). exists true. split; [now constructor|discriminate].
      + st.
        * one_of H0. assert (o = true) as -> by (destruct o; [reflexivity|discriminate (O eq_refl)]).
          use_ S_subquery as s ts a1 (t & -> & H1). fin (R kNOT :: R kIN :: LP :: t ++ [RP]). exists true. split; [now constructor|discriminate].
        * st. fin (@nil tok). exists false. rewrite app_nil_r. split; [econstructor; eassumption|]. intros _. cbn. destruct r; [reflexivity|exact N0].
      + rewrite D in H by discriminate. st.
        * one_of H0. st. one_of H0. st. fin [R kIS; R kNOT; R kNULL]. exists true. split; [now constructor|discriminate].
        * st. one_of H0. st. fin [R kIS; R kNULL]. exists true. split; [now constructor|discriminate].
    - fin (@nil tok). exists false. rewrite app_nil_r. split; [econstructor; eassumption|]. intros _. destruct a as [|t r]; [reflexivity|]. cbn in N, N0. cbn [continues]. rewrite N.
      destruct t as [| | | |k| | | | | |]; try reflexivity. cbn in *. rewrite !orb_false_r in *. apply orb_false_iff in N0. destruct N0 as [N1 N2]. apply orb_false_iff in N2. destruct N2 as [N2 N3]. now rewrite N1, N2, N3.
  Qed.

  Lemma S_subBody : sound (subExprBody n subExpr fromItem) (fun e ts a => exists c, a_sub c e ts /\ (c = false -> continues a = false)).
  Proof.
    intros p a C. unfold subExprBody. use_ S_operand as e ts a1 (o & H1 & H2). apply s_op; [assumption| |].
    - intros t op b r -> Hop C1.
      assert (o = true) as ->. { destruct o; [reflexivity|]. specialize (H2 eq_refl). exfalso. cbn in Hop. repeat destruct Hop as [Hop|Hop]; try contradiction; injection Hop as <- <- <-; discriminate H2. }
      st.
      + destruct b; [|exact Logic.I]. st. cbn [ident_of]. use_ S_subquery as s t1 a1 (t2 & -> & H3). fin (ts ++ t :: R k :: LP :: t2 ++ [RP]). exists true. split; [|discriminate].
        one_of H; cbn [Z.eqb Pos.eqb]; try (apply as_any with (k := kANY); cbn; auto; fail); try (apply as_any with (k := kSOME); cbn; auto; fail). now apply as_all.
      + use_ HS as rr t1 a1 (c & H3 & H4). fin (ts ++ t :: t1). exists c. split; [econstructor; eassumption|exact H4].
    - intros N. eapply wpl_mono; [|eapply S_postfix; eassumption]. intros x p' a' (t1 & -> & -> & C' & H3). fin (ts ++ t1). exact H3.
  Qed.

  (** ** Joins *)

  Lemma S_joinType : sound parseJoinType_ (fun x ts _ => match x with Some CrossJoin => ts = [R kCROSS; R kJOIN] | Some jt => join_words jt ts | None => ts = [] end).
  Proof.
    intros p a C. unfold parseJoinType_. st; [one_of H; fin [R kJOIN]; constructor|].
    st; [one_of H; st; one_of H; fin [R kINNER; R kJOIN]; constructor|].
    st; [one_of H; st; [one_of H; st; one_of H; fin [R kLEFT; R kOUTER; R kJOIN]; constructor|st; one_of H; fin [R kLEFT; R kJOIN]; constructor]|].
    st; [one_of H; st; [one_of H; st; one_of H; fin [R kRIGHT; R kOUTER; R kJOIN]; constructor|st; one_of H; fin [R kRIGHT; R kJOIN]; constructor]|].
    st; [one_of H; st; [one_of H; st; one_of H; fin [R kFULL; R kOUTER; R kJOIN]; constructor|st; one_of H; fin [R kFULL; R kJOIN]; constructor]|].
    st; [one_of H; st; one_of H; fin [R kCROSS; R kJOIN]; reflexivity|]. fin (@nil tok). reflexivity.
  Qed.

  Lemma S_fromOperand : sound (let+ paren := maybeToken tLParen in
      (if paren then
         let+ o := optionalSubquery_ n subExpr fromItem in
         match o with
         | Some s => parseFromStmt_ n s
         | None =>
             let+ fi := parseFromList_ n fromItem in
             expectTokens [tRParen] ;+ ARet fi
         end
       else parseTableAlias)) (fun f ts _ => a_from_operand id name f ts).
  Proof.
    intros p a C. st.
    - use_ S_optionalSubquery as o ts a1 H1. destruct o as [s|].
      + unfold parseFromStmt_. st. use_ S_alias_required as al t1 a1 H2. use_ S_columnAliases as l t2 a2 H3. fin (LP :: ts ++ RP :: t1 ++ t2). now constructor.
      + subst ts. cbn [rev app] in *. use_ S_fromList as f ts a2 H2. st. fin (LP :: ts ++ [RP]). now constructor.
    - use_ S_tableAlias as f ts a1 H1. fin ts. exact H1.
  Qed.

  Lemma s_regroup {A D E} (g : act A) (h : A -> act D) (k : D -> act E) p a Q :
    wpl id name (let+ y := (let+ x := g in h x) in k y) p a Q -> wpl id name (let+ x := g in let+ y := h x in k y) p a Q.
  Proof.
    revert p a. induction g as [x| | | |kk IH|kk IH|kk IH|s kk IH|i kk IH|l kk IH|kk IH]; intros p a; cbn [wpl abind]; try tauto.
    - intros [H1 H2]. split; [exact H1|]. destruct a; [exact H2|]. intros Hp. now apply IH, H2.
    - destruct p; [easy|apply IH].
    - destruct p; [easy|apply IH].
    - apply IH.
    - intros [H1 H]. split; [exact H1|now apply IH].
    - intros H b. apply IH, H.
  Qed.

  Lemma not_on a : not_next (fun t => is_reserved t [kON]) a -> not_next (fun t => is_reserved t [kUSING]) a -> not_next (fun t => is_reserved t [kON; kUSING]) a.
  Proof. destruct a as [|t r]; [auto|]. destruct t; cbn; try auto. rewrite !orb_false_r. now intros -> ->. Qed.

  Lemma S_fromBody : sound (fromItemBody n subExpr fromItem) (fun f ts a => exists b, a_from_item id name b f ts /\ (b = true -> not_next (fun t => is_reserved t [kON; kUSING]) a)).
  Proof.
    intros p a C. unfold fromItemBody. apply s_regroup. use_ S_fromOperand as f ts a1 H1. use_ S_joinType as jt tj a2 H2.
    destruct jt as [jt|]; [|subst tj; fin ts; exists false; split; [now constructor|discriminate]].
    use_ HF as r tr a3 (b & H3 & H4). st.
    - one_of H. assert (b = false) as -> by (destruct b; [discriminate (H4 eq_refl)|reflexivity]).
      st. use_ S_expr_ as e te a4 H5. st. destruct jt; try exact Logic.I; fin (ts ++ tj ++ tr ++ R kON :: te); exists false; (split; [now constructor|discriminate]).
    - st. st.
      + one_of H. assert (b = false) as -> by (destruct b; [discriminate (H4 eq_refl)|reflexivity]).
        st. st. st. use_ S_distinct as c tc a4 (tc' & -> & H5 & H6). st.
        assert (K : c <> []) by (destruct H5; discriminate). destruct c as [|c0 c]; [contradiction|].
        destruct jt; try exact Logic.I; fin (ts ++ tj ++ tr ++ R kUSING :: LP :: tc' ++ [RP]); exists false; (split; [now constructor|discriminate]).
      + st. destruct jt; try exact Logic.I. subst tj. fin (ts ++ R kCROSS :: R kJOIN :: tr). exists true. split; [econstructor; eassumption|]. intros _. now apply not_on.
  Qed.
End Nested.

Section Recursion.
  Variable id : bytes -> Z.
  Variable name : Z -> bytes.

  Lemma S_both n :
    sound id name (parseSubExpr n tt) (fun e ts a => exists c, a_sub id name c e ts /\ (c = false -> continues a = false)) /\
    sound id name (parseFromItem n tt) (fun f ts a => exists b, a_from_item id name b f ts /\ (b = true -> not_next (fun t => is_reserved t [kON; kUSING]) a)).
  Proof.
    induction n as [|n [IS IF]]; [split; intros p a C; exact Logic.I|]. split.
    - eapply S_subBody; eassumption.
    - eapply S_fromBody; eassumption.
  Qed.
  Lemma S_expr n : sound id name (parseExpr n) (fun e ts _ => a_whole id name e ts).
  Proof. eapply S_expr_; try exact (proj1 (S_both n)); first [exact (proj2 (S_both n))|exact n]. Qed.
  Lemma S_select n : sound id name (parseSelect n) (fun x ts _ => a_select id name x ts).
  Proof. destruct (S_both n) as [HS HF]. eapply S_select_; eassumption. Qed.
  Lemma S_values n : sound id name (parseValues n) (fun x ts _ => exists l, x = SValues l /\ a_rows id name l ts).
  Proof. eapply S_values_; try exact (proj1 (S_both n)); first [exact (proj2 (S_both n))|exact n]. Qed.
  Lemma S_where n k : sound id name (optionalExpr_ (parseSubExpr n) k) (fun x ts _ => a_opt_whole id name k x ts).
  Proof. eapply S_optionalExpr; try exact (proj1 (S_both n)); first [exact (proj2 (S_both n))|exact n]. Qed.
End Recursion.
