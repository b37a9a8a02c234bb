(** The parser reads what the grammar says: expressions, queries and what is behind FROM. *)

From Verif Require Import ModelParser SpecGrammar LemmasBase LemmasRegroup LemmasListRun LemmasGrammar.

(** What may follow an operand, and an expression. *)
Definition after_operand (t : tok) : Prop := rune_of t <> tDot /\ rune_of t <> tLParen.
Definition after_expr (l : list tok) : Prop :=
  match l with
  | [] => False
  | t :: r => after_operand t /\ binaryOps (rune_of t) = None /\ is_reserved t [kAND; kOR; kIN; kIS] = false /\
              (is_reserved t [kNOT] = true -> next (no_word [kIN]) r)
  end.
(** What may start one. *)
Definition starts (t : tok) : Prop :=
  is_reserved t [kSELECT; kVALUES; kSHOW; kTABLE; kANY; kSOME; kALL] = false /\ rune_of t <> tRParen /\ rune_of t <> tStar.

Definition ends : list tok := [KRune tRParen; KEnd; KEOF].
Definition after_having (t : tok) : Prop := In t (ends ++ [KReserved kORDER]).
Definition after_group (t : tok) : Prop := after_having t \/ t = KReserved kHAVING.
Definition after_where (t : tok) : Prop := after_group t \/ t = KReserved kGROUP.
Definition after_list (t : tok) : Prop := after_where t \/ t = KReserved kWHERE.
Definition after_results (t : tok) : Prop := after_list t \/ t = KReserved kFROM.
Definition after_item (b : bool) (t : tok) : Prop :=
  after_list t \/ t = KRune tComma \/ (b = false /\ (t = KReserved kON \/ t = KReserved kUSING)).
Definition after_from_operand (t : tok) : Prop :=
  after_item false t \/ In t (map KReserved [kJOIN; kINNER; kLEFT; kRIGHT; kFULL; kCROSS]).

(** Case analysis over the tokens that may follow. *)
Ltac each F :=
  lazymatch type of F with
  | after_from_operand _ => unfold after_from_operand in F; each F
  | after_item _ _ => unfold after_item in F; each F
  | after_results _ => unfold after_results in F; each F
  | after_list _ => unfold after_list in F; each F
  | after_where _ => unfold after_where in F; each F
  | after_group _ => unfold after_group in F; each F
  | after_having _ => unfold after_having, ends in F; cbn [app In] in F; each F
  | after_query _ => unfold after_query in F; cbn [app In] in F; each F
  | In _ _ => cbn [In map app] in F; each F
  | _ \/ _ => destruct F as [F|F]; each F
  | _ /\ _ => let G := fresh in destruct F as [G F]; try discriminate G; each F
  | False => contradiction
  | _ => try (discriminate F); try subst; try rewrite <- F
  end.

Lemma results_expr l : next after_results l -> after_expr l.
Proof. destruct l as [|t l]; [contradiction|]. cbn [next]. intros F. each F; (split; [split; discriminate|split; [reflexivity|split; [reflexivity|discriminate]]]). Qed.
Lemma item_expr b l : next (after_item b) l -> after_expr l.
Proof. destruct l as [|t l]; [contradiction|]. cbn [next]. intros F. each F; (split; [split; discriminate|split; [reflexivity|split; [reflexivity|discriminate]]]). Qed.
Lemma alias_next (P : tok -> Prop) a ts rest : opt_alias a ts -> P (KReserved kAS) -> (forall i, P (KIdent i)) -> next P rest -> next P (ts ++ rest).
Proof. intros [|a0 ts0 [ ]] H1 H2 H3; cbn; auto. Qed.

Section ReadsExpr.
  Variable id : bytes -> Z.
  Variable name : Z -> bytes.
  Notation reads := (reads id name).
  Notation operand := (operand id name).
  Notation sub := (sub id name).
  Notation args := (args id name).
  Notation whole := (whole id name).
  Notation wholes := (wholes id name).
  Notation results := (results id name).

  Lemma operand_first e ts : operand e ts -> exists t r, ts = t :: r /\ starts t.
  Proof. intros [ ]; (do 2 eexists; split; [reflexivity|]; split; [reflexivity|split; discriminate]). Qed.
  Lemma sub_first e ts : sub e ts -> exists t r, ts = t :: r /\ starts t.
  Proof.
    intros [e0 t0 H|e0 t0 H|e0 t0 H|t op b l r t0 t1 K H1 H2|e0 t0 H|e0 t0 H|e0 s t0 t1 H H1|e0 s t0 t1 H H1|t op k e0 s t0 t1 K1 K2 H H1|t op e0 s t0 t1 K H H1];
      try (do 2 eexists; split; [reflexivity|]; split; [reflexivity|split; discriminate]);
      match goal with H : operand _ _ |- _ => destruct (operand_first _ _ H) as (t9 & r9 & -> & S9) end; cbn [app]; eauto.
  Qed.
  Lemma args_first l ts : args l ts -> exists t r, ts = t :: r /\ starts t.
  Proof. intros [e t0 H|e l0 t0 t1 H H1]; destruct (sub_first _ _ H) as (t & r & -> & S); cbn [app]; eauto. Qed.
  Lemma whole_first e ts : whole e ts -> exists t r, ts = t :: r /\ starts t.
  Proof. intros [e0 e1 t0 H _ _]. now apply (sub_first e0). Qed.

  Lemma operand_dot e ts rest i l : operand e ts -> next (no_rune tDot) rest -> ts ++ rest = KIdent i :: KRune tDot :: l ->
    exists j l', l = KIdent j :: l'.
  Proof.
    intros [ | | | | | |i0 l0 t0 D|f| |f l0 t0 A|e0 t0 A|s0 t0 A|s0 t0 A] N E; cbn [app] in E; try discriminate E.
    destruct D as [|j l1 t1 D]; cbn [app] in E.
    - injection E as -> ->. now elim N.
    - injection E as -> <-. eauto.
  Qed.
  Lemma infix_after t op b : In (t, op, b) infix_tokens -> after_operand t /\ infix_op op /\ is_reserved t [kANY; kSOME; kALL] = false.
  Proof. intros H. cbn [infix_tokens In] in H. repeat (destruct H as [H|H]; [injection H as <- <- <-; split; [split; discriminate|split; [exact Logic.I|reflexivity]]|]). contradiction. Qed.
  Lemma sub_dot e ts rest i l : sub e ts -> next (no_rune tDot) rest -> ts ++ rest = KIdent i :: KRune tDot :: l ->
    exists j l', l = KIdent j :: l'.
  Proof.
    intros [e0 t0 H|e0 t0 H|e0 t0 H|t op b l0 r t0 t1 K H1 H2|e0 t0 H|e0 t0 H|e0 s t0 t1 H H1|e0 s t0 t1 H H1|t op k e0 s t0 t1 K1 K2 H H1|t op e0 s t0 t1 K H H1] N E;
      try discriminate E; norm_toks; rewrite <- ?app_assoc in E; cbn [app] in E; try (now apply (operand_dot _ _ _ _ _ H N E)).
    1: (eapply operand_dot; [exact H1| |exact E]; exact (proj1 (proj1 (infix_after _ _ _ K)))).
    all: eapply operand_dot; [exact H| |exact E]; first [discriminate | exact (proj1 (proj1 (infix_after _ _ _ K))) | exact (proj1 (proj1 (infix_after _ _ _ K1)))].
  Qed.

  Section Ops.
    Context {B : Type}.
    Lemma l_binaryOp_yes t op b p a (h : _ -> act B) : In (t, op, b) infix_tokens ->
      lrun id name (abind optionalBinaryOp h) p (t :: a) = lrun id name (h (Some (op, b))) (t :: p) a.
    Proof. intros H. unfold optionalBinaryOp. rewrite lrun_assoc, l_scan. cbn [infix_tokens In] in H. repeat (destruct H as [H|H]; [injection H as <- <- <-; reflexivity|]). contradiction. Qed.
    Lemma l_binaryOp_no t p a (h : _ -> act B) : binaryOps (rune_of t) = None -> is_reserved t [kAND; kOR] = false ->
      lrun id name (abind optionalBinaryOp h) p (t :: a) = lrun id name (h None) p (t :: a).
    Proof.
      intros H1 H2. unfold optionalBinaryOp. rewrite lrun_assoc, l_scan, H1. destruct t as [| |e9|i9|k|s9|l9|i9|p9|i9|r9]; cbn in H2; try (lred; steps; reflexivity).
      cbn [is_reserved existsb]. destruct (k =? kAND); [discriminate|]. destruct (k =? kOR); [discriminate|]. cbn [orb]. rewrite lrun_assoc, l_unscan; reflexivity.
    Qed.
  End Ops.

  Lemma is_reserved_sub t l l' : (forall x, In x l' -> In x l) -> is_reserved t l = false -> is_reserved t l' = false.
  Proof.
    intros H. destruct t as [| |e9|i9|k|s9|l9|i9|p9|i9|r9]; try reflexivity. cbn [is_reserved]. intros E. destruct (existsb (Z.eqb k) l') eqn:E'; [|reflexivity].
    apply existsb_exists in E'. destruct E' as (x & E1 & E2). rewrite <- E. symmetry. apply existsb_exists. exists x. eauto.
  Qed.

  Lemma l_optional_no' {B} ids p a (h : bool -> act B) : next (no_word ids) a ->
    lrun id name (abind (optionalReserved ids) h) p a = lrun id name (h false) p a.
  Proof. destruct a; [contradiction|]. apply l_optional_no. Qed.
  Lemma l_maybe_no' {B} r p a (h : bool -> act B) : next (no_rune r) a ->
    lrun id name (abind (maybeToken r) h) p a = lrun id name (h false) p a.
  Proof. destruct a; [contradiction|]. apply l_maybe_no. Qed.
  Lemma lrun_ext {A B} (m : act A) (f g : A -> act B) : (forall x p a, lrun id name (f x) p a = lrun id name (g x) p a) ->
    forall p a, lrun id name (abind m f) p a = lrun id name (abind m g) p a.
  Proof.
    intros H. induction m as [x| | | |kk IH|kk IH|kk IH|s kk IH|i kk IH|l kk IH|kk IH]; intros p a; cbn [abind lrun]; try reflexivity.
    - apply H.
    - destruct a; [reflexivity|apply IH].
    - destruct p; [reflexivity|apply IH].
    - destruct p; [reflexivity|apply IH].
    - apply IH.
    - destruct (existsb (is_name i) p); [apply IH|reflexivity].
  Qed.

  (** Nothing is read behind an expression. *)
  Lemma l_postfix_none n e p rest {B} (h : expr -> act B) : after_expr rest ->
    lrun id name (abind optionalBinaryOp (fun o => abind
      match o with
      | None => parsePostfix_ n (parseSubExpr n) (parseFromItem n) e
      | Some (op, bop) =>
        let+ b := optionalReserved [kANY; kSOME; kALL] in
        if b then
          if bop : bool then
            let+ t := tok_ in
            let+ s := parseSubquery_ n (parseSubExpr n) (parseFromItem n) in
            ARet (Subquery (if ident_of t =? kALL then All else Any) op (Some e) s)
          else AError
        else
          let+ r := parseSubExpr n tt in
          ARet (BinaryExpr op e r)
      end h)) p rest = lrun id name (h e) p rest.
  Proof.
    intros F. destruct rest as [|t rest]; [contradiction|]. destruct F as (F1 & F2 & F3 & F4).
    rewrite l_binaryOp_no; [|exact F2|revert F3; apply is_reserved_sub; cbn; tauto]. lred. unfold parsePostfix_. step1.
    destruct (is_reserved t [kNOT]) eqn:E.
    - specialize (F4 eq_refl). destruct rest as [|t' rest]; [contradiction|]. cbn [next] in F4. unfold no_word in F4.
      destruct t as [| |e9|i9|k|s9|l9|i9|p9|i9|r9]; try discriminate E. cbn [is_reserved existsb] in E. rewrite orb_false_r in E. apply Z.eqb_eq in E. subst.
      steps. cbn [ident_of Z.eqb Pos.eqb]. steps. reflexivity.
    - assert (F5 : is_reserved t [kIN; kNOT; kIS] = false).
      { destruct t as [| |e9|i9|k|s9|l9|i9|p9|i9|r9]; try reflexivity. cbn [is_reserved existsb] in *. destruct (k =? kIN), (k =? kNOT), (k =? kIS); try discriminate; try reflexivity; rewrite ?orb_true_r in F3; discriminate. }
      steps. reflexivity.
  Qed.

  Scheme operand_min := Minimality for SpecGrammar.operand Sort Prop
  with sub_min := Minimality for SpecGrammar.sub Sort Prop
  with args_min := Minimality for SpecGrammar.args Sort Prop
  with whole_min := Minimality for SpecGrammar.whole Sort Prop
  with wholes_min := Minimality for SpecGrammar.wholes Sort Prop
  with rows_min := Minimality for SpecGrammar.rows Sort Prop
  with result_min := Minimality for SpecGrammar.result Sort Prop
  with results_min := Minimality for SpecGrammar.results Sort Prop
  with opt_results_min := Minimality for SpecGrammar.opt_results Sort Prop
  with opt_whole_min := Minimality for SpecGrammar.opt_whole Sort Prop
  with opt_group_min := Minimality for SpecGrammar.opt_group Sort Prop
  with opt_from_min := Minimality for SpecGrammar.opt_from Sort Prop
  with select_min := Minimality for SpecGrammar.select Sort Prop
  with query_min := Minimality for SpecGrammar.query Sort Prop
  with from_operand_min := Minimality for SpecGrammar.from_operand Sort Prop
  with from_item_min := Minimality for SpecGrammar.from_item Sort Prop
  with from_list_min := Minimality for SpecGrammar.from_list Sort Prop
  with from_more_min := Minimality for SpecGrammar.from_more Sort Prop.
  Combined Scheme grammar_min from operand_min, sub_min, args_min, whole_min, wholes_min, rows_min, result_min, results_min,
    opt_results_min, opt_whole_min, opt_group_min, opt_from_min, select_min, query_min, from_operand_min, from_item_min, from_list_min, from_more_min.

  (** The pieces of the parser. *)
  Definition callLoop n m := aloop m (fun args =>
    let+ e := parseSubExpr n tt in
    let args := args ++ [e] in
    let+ paren := maybeToken tRParen in
    if paren then ARet (inr args) else expectTokens [tComma] ;+ ARet (inl args)).
  Definition rowLoop n m := aloop m (fun row =>
    let+ e := parseExpr n in
    let row := row ++ [e] in
    let+ r := expectTokens [tComma; tRParen] in
    if r =? tRParen then ARet (inr row) else ARet (inl row)).
  Definition groupLoop n m := aloop m (fun es =>
    let+ e := parseExpr n in
    let+ comma := maybeToken tComma in
    if comma then ARet (inl (es ++ [e])) else ARet (inr (es ++ [e]))).
  Definition valuesLoop n m := aloop m (fun rows : list (list expr) =>
    expectTokens [tLParen] ;+
    let+ row := rowLoop n n [] in
    if match rows with [] => false | r0 :: _ => negb (length r0 =? length row)%nat end then AError
    else
      let rows := rows ++ [row] in
      let+ comma := maybeToken tComma in
      if comma then ARet (inl rows) else ARet (inr (SValues rows))).
  Definition resultMore (results : list (selectresult expr)) : act (list (selectresult expr) + list (selectresult expr)) :=
    let+ comma := maybeToken tComma in
    if comma then ARet (inl results) else ARet (inr results).
  Definition resultExpr n results :=
    let+ e := parseExpr n in
    let+ alias := parseAlias false in
    resultMore (results ++ [ExprResult e alias]).
  Definition resultBody n results :=
    let+ t := scan_ in
    match t with
    | KIdent tbl =>
        let+ dot := maybeToken tDot in
        if dot then
          let+ star := maybeToken tStar in
          if star then resultMore (results ++ [TableResult tbl])
          else unscan_ ;+ (unscan_ ;+ resultExpr n results)
        else (unscan_ ;+ resultExpr n results)
    | _ => (unscan_ ;+ resultExpr n results)
    end.
  Definition resultLoop n m := aloop m (resultBody n).
  Definition fromOperand_ n :=
    let+ paren := maybeToken tLParen in
    if paren then
       let+ o := optionalSubquery_ n (parseSubExpr n) (parseFromItem n) in
       match o with
       | Some s => parseFromStmt_ n s
       | None =>
           let+ fi := parseFromList_ n (parseFromItem n) in
           expectTokens [tRParen] ;+ ARet fi
       end
     else parseTableAlias.
  Definition joinRest n (fi : fromitem) : act fromitem :=
    let+ jt := parseJoinType_ in
    match jt with
    | None => ARet fi
    | Some jt =>
        let+ r := parseFromItem n tt in
        let+ b := optionalReserved [kON] in
        let+ '(on, cols) :=
          (if b then (let+ e := parseExpr n in ARet (Some e, []))
           else
             let+ b := optionalReserved [kUSING] in
             if b then
               expectTokens [tLParen] ;+
               let+ cols := parseDistinctColumns n in ARet (None, cols)
             else ARet (None, [])) in
        match jt, on, cols with
        | CrossJoin, None, [] => ARet (FromJoin fi r jt None [])
        | CrossJoin, _, _ => AError
        | _, None, [] => AError
        | _, _, _ => ARet (FromJoin fi r jt on cols)
        end
    end.
  Lemma l_fromItem n {B} (h : _ -> act B) p a : lrun id name (abind (parseFromItem (S n) tt) h) p a =
    lrun id name (abind (fromOperand_ n) (fun fi => abind (joinRest n fi) h)) p a.
  Proof.
    change (parseFromItem (S n) tt) with (fromItemBody n (parseSubExpr n) (parseFromItem n)). unfold fromItemBody, fromOperand_. rewrite !lrun_assoc. apply lrun_ext. intros x p0 a0. apply lrun_assoc.
  Qed.
  Definition listLoop n m := aloop m (fun fi =>
    let+ comma := maybeToken tComma in
    if comma then
      let+ r := parseFromItem n tt in
      ARet (inl (FromJoin fi r CrossJoin None []))
    else ARet (inr fi)).

  Definition C_operand (e : expr) (ts : list tok) : Prop :=
    single e /\ read_right e /\
    forall n, (length ts <= n)%nat -> reads (parseOperand_ n (parseSubExpr n) (parseFromItem n)) ts e (next after_operand).
  Definition C_sub (e : expr) (ts : list tok) : Prop :=
    read_right e /\ forall n, (length ts < n)%nat -> reads (parseSubExpr n tt) ts e after_expr.
  Definition C_args (l : list expr) (ts : list tok) : Prop :=
    (fix all (args : list expr) : Prop := match args with [] => True | a :: args' => read_right a /\ all args' end) l /\
    forall n m l0, (length ts < n)%nat -> (length ts < m)%nat -> reads (callLoop n m l0) (ts ++ [KRune tRParen]) (l0 ++ l) (fun _ => True).
  Definition C_whole (e : expr) (ts : list tok) : Prop :=
    forall n, (length ts < n)%nat -> reads (parseExpr n) ts e after_expr.
  Definition C_wholes (l : list expr) (ts : list tok) : Prop :=
    (forall n m l0, (length ts < n)%nat -> (length ts < m)%nat -> reads (rowLoop n m l0) (ts ++ [KRune tRParen]) (l0 ++ l) (fun _ => True)) /\
    (forall n m l0, (length ts < n)%nat -> (length ts < m)%nat -> reads (groupLoop n m l0) ts (l0 ++ l) (fun r => after_expr r /\ next (no_rune tComma) r)).
  Definition C_rows (l : list (list expr)) (ts : list tok) : Prop :=
    forall n m l0, (length ts < n)%nat -> (length ts < m)%nat ->
      match l0 with [] => True | r0 :: _ => Forall (fun r => length r = length r0) l end ->
      reads (valuesLoop n m l0) ts (SValues (l0 ++ l)) (next (no_rune tComma)).
  Definition C_result (r : selectresult expr) (ts : list tok) : Prop :=
    forall n rest p l0 B (h : _ -> act B), (length ts < n)%nat -> after_expr rest -> next after_alias rest ->
      lrun id name (abind (resultBody n l0) h) p (ts ++ rest) = lrun id name (abind (resultMore (l0 ++ [r])) h) (rev ts ++ p) rest.
  Definition C_results (l : list (selectresult expr)) (ts : list tok) : Prop :=
    (exists t r, ts = t :: r /\ rune_of t <> tStar) /\
    forall n m l0, (length ts < n)%nat -> (length ts < m)%nat -> reads (resultLoop n m l0) ts (l0 ++ l) (next after_results).
  Definition C_opt_results (o : option (list (selectresult expr))) (ts : list tok) : Prop :=
    match o with None => ts = [KRune tStar] | Some l => C_results l ts end.
  Definition C_opt_whole (k : Z) (o : option expr) (ts : list tok) : Prop :=
    match o with None => ts = [] | Some e => exists ts', ts = KReserved k :: ts' /\ C_whole e ts' end.
  Definition C_opt_group (l : list expr) (ts : list tok) : Prop :=
    (l = [] /\ ts = []) \/ exists ts', ts = KReserved kGROUP :: KReserved kBY :: ts' /\ C_wholes l ts'.
  Definition C_from_list (f : fromitem) (ts : list tok) : Prop :=
    next (fun t => is_reserved t [kSELECT; kVALUES; kSHOW; kTABLE] = false) ts /\
    forall n, (length ts < n)%nat -> reads (parseFromList_ n (parseFromItem n)) ts f (next after_list).
  Definition C_opt_from (o : option fromitem) (ts : list tok) : Prop :=
    match o with None => ts = [] | Some f => exists ts', ts = KReserved kFROM :: ts' /\ C_from_list f ts' end.
  Definition C_select (s : stmt) (ts : list tok) : Prop :=
    forall n, (length ts < n)%nat -> reads (parseSelect n) ts s (next after_query).
  Definition C_query (s : stmt) (ts : list tok) : Prop :=
    forall n, (length ts <= n)%nat -> reads (optionalSubquery_ n (parseSubExpr n) (parseFromItem n)) ts (Some s) (next after_query).
  Definition no_query (ts : list tok) : Prop := next (fun t => is_reserved t [kSELECT; kVALUES; kSHOW; kTABLE] = false) ts.
  Definition C_from_operand (f : fromitem) (ts : list tok) : Prop :=
    no_query ts /\
    forall n, (length ts <= n)%nat -> reads (fromOperand_ n) ts f (next after_from_operand).
  Definition C_from_item (b : bool) (f : fromitem) (ts : list tok) : Prop :=
    no_query ts /\
    forall n, (length ts < n)%nat -> reads (parseFromItem n tt) ts f (next (after_item b)).
  Definition C_from_more (f f' : fromitem) (ts : list tok) : Prop :=
    (forall rest, next after_list rest -> next (after_item true) (ts ++ rest)) /\
    forall n m, (length ts < n)%nat -> (length ts < m)%nat -> reads (listLoop n m f) ts f' (next after_list).

  Ltac lens := repeat (progress (cbn [length] in *; rewrite ?app_length in * )); lia.
  Ltac ae := (split; [split; discriminate|split; [reflexivity|split; [reflexivity|discriminate]]]).

  Lemma reads_grammar :
    (forall e ts, operand e ts -> C_operand e ts) /\
    (forall e ts, sub e ts -> C_sub e ts) /\
    (forall l ts, args l ts -> C_args l ts) /\
    (forall e ts, whole e ts -> C_whole e ts) /\
    (forall l ts, wholes l ts -> C_wholes l ts) /\
    (forall l ts, SpecGrammar.rows id name l ts -> C_rows l ts) /\
    (forall r ts, SpecGrammar.result id name r ts -> C_result r ts) /\
    (forall l ts, results l ts -> C_results l ts) /\
    (forall o ts, SpecGrammar.opt_results id name o ts -> C_opt_results o ts) /\
    (forall k o ts, SpecGrammar.opt_whole id name k o ts -> C_opt_whole k o ts) /\
    (forall l ts, SpecGrammar.opt_group id name l ts -> C_opt_group l ts) /\
    (forall o ts, SpecGrammar.opt_from id name o ts -> C_opt_from o ts) /\
    (forall s ts, SpecGrammar.select id name s ts -> C_select s ts) /\
    (forall s ts, SpecGrammar.query id name s ts -> C_query s ts) /\
    (forall f ts, SpecGrammar.from_operand id name f ts -> C_from_operand f ts) /\
    (forall b f ts, SpecGrammar.from_item id name b f ts -> C_from_item b f ts) /\
    (forall f ts, SpecGrammar.from_list id name f ts -> C_from_list f ts) /\
    (forall f f' ts, SpecGrammar.from_more id name f f' ts -> C_from_more f f' ts).
  Proof.
    apply grammar_min.
    (* operands *)
    - split; [exact Logic.I|split; [exact Logic.I|]]. intros n Hn B h p rest F. unfold parseOperand_. norm_toks. steps. past.
    - split; [exact Logic.I|split; [exact Logic.I|]]. intros n Hn B h p rest F. unfold parseOperand_. norm_toks. steps. past.
    - split; [exact Logic.I|split; [exact Logic.I|]]. intros n Hn B h p rest F. unfold parseOperand_. norm_toks. steps. past.
    - intros v. split; [exact Logic.I|split; [exact Logic.I|]]. intros n Hn B h p rest F. unfold parseOperand_. norm_toks. steps. past.
    - intros v. split; [exact Logic.I|split; [exact Logic.I|]]. intros n Hn B h p rest F. unfold parseOperand_. norm_toks. steps. past.
    - intros v. split; [exact Logic.I|split; [exact Logic.I|]]. intros n Hn B h p rest F. unfold parseOperand_. norm_toks. steps. past.
    - (* ref *) intros i l ts D. split; [exact Logic.I|split; [exact Logic.I|]]. intros n Hn B h p rest F. unfold parseOperand_. norm_toks. steps.
      destruct rest as [|t rest]; [contradiction|]. destruct F as [F1 F2].
      assert (K : exists t' r', ts ++ t :: rest = t' :: r' /\ rune_of t' <> tLParen) by (destruct D; cbn [app]; eauto; do 2 eexists; split; [reflexivity|discriminate]).
      destruct K as (t' & r' & K1 & K2). rewrite K1. steps. rewrite <- K1. unfold parseRef_. steps. cbn [ident_of].
      assert (L : forall n l0 ts l, dots l ts -> (length ts < n)%nat -> reads (aloop n (fun ids =>
         let+ dot := maybeToken tDot in if dot then let+ id := expectIdentifier in ARet (inl (ids ++ [id])) else ARet (inr ids)) l0) ts (l0 ++ l) (next (no_rune tDot))).
      { clear. intros n l0 ts l D. revert n l0. induction D as [|i l ts D IH]; intros n l0 Hn B h p rest F; (destruct n as [|n]; [lens|]); norm_toks.
        - destruct rest as [|t rest]; [contradiction|]. cbn in F. unfold no_rune in F. steps. rewrite app_nil_r. past.
        - steps. use (IH n (l0 ++ [i]) ltac:(lens)); [|exact F]. rewrite <- app_assoc. past. }
      use (L n [i] ts l D ltac:(lens)); [|exact F1]. steps. past.
    - (* f() *) intros f. split; [exact Logic.I|split; [exact Logic.I|]]. intros n Hn B h p rest F. unfold parseOperand_. norm_toks. steps. unfold parseCall_. steps. past.
    - (* count *) split; [exact Logic.I|split; [exact Logic.I|]]. intros n Hn B h p rest F. unfold parseOperand_. norm_toks. steps. unfold parseCall_. steps. cbn [Z.eqb Pos.eqb]. steps. past.
    - (* call *) intros f l ts A [I1 I2]. split; [exact Logic.I|split; [exact I1|]]. intros n Hn B h p rest F. unfold parseOperand_. norm_toks. steps. unfold parseCall_.
      destruct (args_first _ _ A) as (t & r & E & S1 & S2 & S3).
      assert (E' : ts ++ KRune 41 :: rest = t :: r ++ KRune 41 :: rest) by (now rewrite E). rewrite E'. steps.
      transitivity (lrun id name (abind (callLoop n n []) (fun l => h (SExpr f l))) (KRune 40 :: KIdent f :: p) (ts ++ KRune 41 :: rest)).
      { rewrite E'. destruct (f =? iCOUNT); steps; reflexivity. }
      use (I2 n n [] ltac:(lens) ltac:(lens)); [|exact Logic.I]. past.
    - (* paren *) intros e ts A [I1 I2]. split; [exact Logic.I|split; [exact I1|]]. intros n Hn B h p rest F. unfold parseOperand_. norm_toks. steps. cbn [rune_of Z.eqb Pos.eqb]. steps.
      destruct (sub_first _ _ A) as (t & r & E & S1 & S2 & S3).
      assert (E' : ts ++ KRune 41 :: rest = t :: r ++ KRune 41 :: rest) by (now rewrite E). rewrite E'. unfold optionalSubquery_. steps.
      assert (G1 : is_reserved t [kSELECT] = false) by (revert S1; apply is_reserved_sub; cbn; tauto).
      assert (G2 : is_reserved t [kVALUES] = false) by (revert S1; apply is_reserved_sub; cbn; tauto).
      assert (G3 : is_reserved t [kSHOW] = false) by (revert S1; apply is_reserved_sub; cbn; tauto).
      assert (G4 : is_reserved t [kTABLE] = false) by (revert S1; apply is_reserved_sub; cbn; tauto).
      steps. rewrite <- E'. use (I2 n ltac:(lens)); [|ae]. steps. cbn [rune_of Z.eqb Pos.eqb]. steps. past.
    - (* query *) intros s ts A I2. split; [exact Logic.I|split; [exact Logic.I|]]. intros n Hn B h p rest F. unfold parseOperand_. norm_toks. steps. cbn [rune_of Z.eqb Pos.eqb]. steps.
      use (I2 n ltac:(lens)); [|cbn; tauto]. steps. cbn [rune_of Z.eqb Pos.eqb]. steps. past.
    - (* exists *) intros s ts A I2. split; [exact Logic.I|split; [exact Logic.I|]]. intros n Hn B h p rest F. unfold parseOperand_. norm_toks. steps. cbn [rune_of Z.eqb Pos.eqb]. unfold parseSubquery_. steps.
      use (I2 n ltac:(lens)); [|cbn; tauto]. steps. past.
    (* expressions *)
    - intros e ts A (I0 & I1 & I2). split; [exact I1|]. intros [|n] Hn B h p rest F; [lia|]. change (parseSubExpr (S n) tt) with (subExprBody n (parseSubExpr n) (parseFromItem n)). unfold subExprBody. norm_toks. step1.
      use (I2 n ltac:(lens)); [|destruct rest; [contradiction|apply F]]. steps. now apply l_postfix_none.
    - (* not *) intros e ts A [I1 I2]. split; [split; [exact Logic.I|exact I1]|]. intros [|n] Hn B h p rest F; [lia|]. change (parseSubExpr (S n) tt) with (subExprBody n (parseSubExpr n) (parseFromItem n)). unfold subExprBody. norm_toks. step1.
      unfold parseOperand_. steps. cbn [Z.eqb Pos.eqb]. steps. use (I2 n ltac:(lens)); [|exact F]. steps. rewrite l_postfix_none by exact F. past.
    - (* minus *) intros e ts A [I1 I2]. split; [split; [exact Logic.I|exact I1]|]. intros [|n] Hn B h p rest F; [lia|]. change (parseSubExpr (S n) tt) with (subExprBody n (parseSubExpr n) (parseFromItem n)). unfold subExprBody. norm_toks. step1.
      unfold parseOperand_. steps. cbn [rune_of Z.eqb Pos.eqb]. steps. use (I2 n ltac:(lens)); [|exact F]. steps. rewrite l_postfix_none by exact F. past.
    - (* infix *) intros t op b l r ts ts' K A (I0 & I1 & I2) A' [J1 J2]. destruct (infix_after _ _ _ K) as (K1 & K2 & K3). split; [split; [exact K2|split; [exact I0|split; [exact I1|exact J1]]]|].
      intros [|n] Hn B h p rest F; [lia|]. change (parseSubExpr (S n) tt) with (subExprBody n (parseSubExpr n) (parseFromItem n)). unfold subExprBody. norm_toks. step1.
      use (I2 n ltac:(lens)); [|exact K1]. steps. rewrite (l_binaryOp_yes _ _ _ _ _ _ K). lred.
      destruct (sub_first _ _ A') as (t1 & r1 & E & S1 & S2 & S3).
      assert (E' : ts' ++ rest = t1 :: r1 ++ rest) by (now rewrite E). rewrite E'.
      assert (G1 : is_reserved t1 [kANY; kSOME; kALL] = false) by (revert S1; apply is_reserved_sub; cbn; tauto).
      steps. rewrite <- E'. use (J2 n ltac:(lens)); [|exact F]. steps. past.
    - (* is null *) intros e ts A (I0 & I1 & I2). split; [now split|]. intros [|n] Hn B h p rest F; [lia|]. change (parseSubExpr (S n) tt) with (subExprBody n (parseSubExpr n) (parseFromItem n)). unfold subExprBody. norm_toks. step1.
      use (I2 n ltac:(lens)); [|split; discriminate]. steps. rewrite l_binaryOp_no by reflexivity. lred. unfold parsePostfix_. steps. cbn [ident_of Z.eqb Pos.eqb]. steps. past.
    - intros e ts A (I0 & I1 & I2). split; [now split|]. intros [|n] Hn B h p rest F; [lia|]. change (parseSubExpr (S n) tt) with (subExprBody n (parseSubExpr n) (parseFromItem n)). unfold subExprBody. norm_toks. step1.
      use (I2 n ltac:(lens)); [|split; discriminate]. steps. rewrite l_binaryOp_no by reflexivity. lred. unfold parsePostfix_. steps. cbn [ident_of Z.eqb Pos.eqb]. steps. past.
    - (* in *) intros e s ts ts' A (I0 & I1 & I2) A' J. split; [exact Logic.I|]. intros [|n] Hn B h p rest F; [lia|]. change (parseSubExpr (S n) tt) with (subExprBody n (parseSubExpr n) (parseFromItem n)). unfold subExprBody. norm_toks. step1.
      use (I2 n ltac:(lens)); [|split; discriminate]. steps. rewrite l_binaryOp_no by reflexivity. lred. unfold parsePostfix_. steps. cbn [ident_of Z.eqb Pos.eqb]. unfold parseSubquery_. steps.
      use (J n ltac:(lens)); [|cbn; tauto]. steps. past.
    - (* not in *) intros e s ts ts' A (I0 & I1 & I2) A' J. split; [exact Logic.I|]. intros [|n] Hn B h p rest F; [lia|]. change (parseSubExpr (S n) tt) with (subExprBody n (parseSubExpr n) (parseFromItem n)). unfold subExprBody. norm_toks. step1.
      use (I2 n ltac:(lens)); [|split; discriminate]. steps. rewrite l_binaryOp_no by reflexivity. lred. unfold parsePostfix_. steps. cbn [ident_of Z.eqb Pos.eqb]. unfold parseSubquery_. steps.
      use (J n ltac:(lens)); [|cbn; tauto]. steps. past.
    - (* any *) intros t op k e s ts ts' K K' A (I0 & I1 & I2) A' J. destruct (infix_after _ _ _ K) as (K1 & K2 & K3). split; [exact Logic.I|]. intros [|n] Hn B h p rest F; [lia|]. change (parseSubExpr (S n) tt) with (subExprBody n (parseSubExpr n) (parseFromItem n)). unfold subExprBody. norm_toks. step1.
      use (I2 n ltac:(lens)); [|exact K1]. steps. rewrite (l_binaryOp_yes _ _ _ _ _ _ K). lred. unfold parseSubquery_.
      destruct K' as [<-|[<-|[]]]; steps; cbn [ident_of Z.eqb Pos.eqb]; steps; (use (J n ltac:(lens)); [|cbn; tauto]); steps; past.
    - (* all *) intros t op e s ts ts' K A (I0 & I1 & I2) A' J. destruct (infix_after _ _ _ K) as (K1 & K2 & K3). split; [exact Logic.I|]. intros [|n] Hn B h p rest F; [lia|]. change (parseSubExpr (S n) tt) with (subExprBody n (parseSubExpr n) (parseFromItem n)). unfold subExprBody. norm_toks. step1.
      use (I2 n ltac:(lens)); [|exact K1]. steps. rewrite (l_binaryOp_yes _ _ _ _ _ _ K). lred. unfold parseSubquery_.
      steps; cbn [ident_of Z.eqb Pos.eqb]; steps; (use (J n ltac:(lens)); [|cbn; tauto]); steps; past.
    (* arguments *)
    - intros e ts A [I1 I2]. split; [now split|]. intros n [|m] l0 Hn Hm B h p rest F; [lia|]. unfold callLoop. norm_toks. steps. use (I2 n ltac:(lens)); [|ae]. steps. past.
    - intros e l ts ts' A [I1 I2] A' [J1 J2]. split; [now split|]. intros n [|m] l0 Hn Hm B h p rest F; [lia|]. unfold callLoop. norm_toks. steps. use (I2 n ltac:(lens)); [|ae]. steps.
      use (J2 n m (l0 ++ [e]) ltac:(lens) ltac:(lens)); [|exact Logic.I]. rewrite <- app_assoc. past.
    (* whole expressions *)
    - intros e0 e ts A [I1 I2] T W n Hn B h p rest F. unfold parseExpr, parseExpr_. step1. use (I2 n Hn); [|exact F]. unfold adjust. rewrite (adjust_is e0 e I1 T W). steps. past.
    - intros e ts A I2. split; intros n [|m] l0 Hn Hm B h p rest F; try lia; [unfold rowLoop|unfold groupLoop]; norm_toks; steps.
      + use (I2 n ltac:(lens)); [|ae]. steps. cbn [rune_of Z.eqb Pos.eqb]. steps. past.
      + destruct F as [F1 F2]. use (I2 n ltac:(lens)); [|exact F1]. destruct rest as [|t rest]; [contradiction|]. cbn [next] in F2. unfold no_rune in F2. steps. past.
    - intros e l ts ts' A I2 A' [J1 J2]. split; intros n [|m] l0 Hn Hm B h p rest F; try lia; [unfold rowLoop|unfold groupLoop]; norm_toks; steps.
      + use (I2 n ltac:(lens)); [|ae]. steps. cbn [rune_of Z.eqb Pos.eqb]. steps. use (J1 n m (l0 ++ [e]) ltac:(lens) ltac:(lens)); [|exact Logic.I]. rewrite <- app_assoc. past.
      + use (I2 n ltac:(lens)); [|ae]. steps. use (J2 n m (l0 ++ [e]) ltac:(lens) ltac:(lens)); [|exact F]. rewrite <- app_assoc. past.
    (* rows *)
    - intros l ts A [I1 _] n [|m] l0 Hn Hm N B h p rest F; [lia|]. unfold valuesLoop. norm_toks. steps. use (I1 n n [] ltac:(lens) ltac:(lens)); [|exact Logic.I]. cbn [app].
      destruct rest as [|t rest]; [contradiction|]. cbn [next] in F. unfold no_rune in F.
      replace (match l0 with [] => false | r0 :: _ => negb (length r0 =? length l)%nat end) with false
        by (destruct l0; [reflexivity|]; inversion N; subst; symmetry; apply negb_false_iff, Nat.eqb_eq; auto).
      steps. past.
    - intros l ls ts ts' A [I1 _] A' J NN n [|m] l0 Hn Hm N B h p rest F; [lia|]. unfold valuesLoop. norm_toks. steps. use (I1 n n [] ltac:(lens) ltac:(lens)); [|exact Logic.I]. cbn [app].
      replace (match l0 with [] => false | r0 :: _ => negb (length r0 =? length l)%nat end) with false
        by (destruct l0; [reflexivity|]; inversion N; subst; symmetry; apply negb_false_iff, Nat.eqb_eq; auto).
      steps. use (J n m (l0 ++ [l]) ltac:(lens) ltac:(lens) ltac:(destruct l0; [exact NN|now inversion N])); [|exact F]. rewrite <- app_assoc. past.
    (* results *)
    - intros t n rest p l0 B h Hn F1 F2. unfold resultBody. norm_toks. steps. past.
    - intros e a ts ts' A I2 A' n rest p l0 B h Hn F1 F2. destruct A as [e0 e ts A T W].
      destruct (sub_first _ _ A) as (t & r & E & S1 & S2 & S3).
      destruct rest as [|t1 rest]; [contradiction|].
      assert (FF : after_expr (ts' ++ t1 :: rest)) by (destruct A' as [|a ts' [ ]]; [exact F1|ae..]).
      assert (Q : forall i l, ts ++ ts' ++ t1 :: rest = KIdent i :: KRune tDot :: l -> exists j l', l = KIdent j :: l').
      { intros i l. apply (sub_dot _ _ _ _ _ A). destruct (ts' ++ t1 :: rest); [contradiction|]. apply FF. }
      assert (E1 : exists t2 r2, ts' ++ t1 :: rest = t2 :: r2) by (destruct ts'; cbn [app]; eauto). destruct E1 as (t2 & r2 & E1).
      transitivity (lrun id name (abind (resultExpr n l0) h) p (ts ++ ts' ++ t1 :: rest)).
      + rewrite <- app_assoc. rewrite E in *. cbn [app] in *. unfold resultBody. steps.
        assert (E2 : exists t3 r3, r ++ ts' ++ t1 :: rest = t3 :: r3) by (destruct r; cbn [app]; [rewrite E1|]; eauto). destruct E2 as (t3 & r3 & E2). rewrite E2 in *.
        destruct t; steps; try reflexivity.
        destruct (Z.eq_dec (rune_of t3) tDot) as [D|D]; [|steps; reflexivity].
        assert (D' : t3 = KRune tDot) by (destruct t3; try discriminate D; cbn in D; now subst). subst t3. destruct (Q _ _ eq_refl) as (j & l' & ->). steps. reflexivity.
      + unfold resultExpr. steps. use (I2 n ltac:(lens)); [|exact FF]. steps. use (reads_optAlias id name a ts' A'); [|exact F2]. past.
    - intros r ts A I2. split.
      { destruct A as [t|e a ts ts' A A']; [do 2 eexists; split; [reflexivity|discriminate]|]. destruct (whole_first _ _ A) as (t & r & -> & S1 & S2 & S3). cbn [app]. eauto. }
      intros n [|m] l0 Hn Hm B h p rest F; [lia|]. unfold resultLoop. steps. destruct rest as [|t rest]; [contradiction|]. cbn [next] in F.
      rewrite I2; [|lens|each F; ae|each F; split; (exact Logic.I || reflexivity)]. unfold resultMore. assert (G : rune_of t <> tComma) by (each F; discriminate). steps. past.
    - intros r l ts ts' A I2 A' [_ J]. split.
      { destruct A as [t|e a ts1 ts2 A A1]; [do 2 eexists; split; [reflexivity|discriminate]|]. destruct (whole_first _ _ A) as (t & r & -> & S1 & S2 & S3). cbn [app]. eauto. }
      intros n [|m] l0 Hn Hm B h p rest F; [lia|]. unfold resultLoop. norm_toks. steps.
      rewrite I2; [|lens|ae|split; (exact Logic.I || reflexivity)]. unfold resultMore. steps. use (J n m (l0 ++ [r]) ltac:(lens) ltac:(lens)); [|exact F]. rewrite <- app_assoc. past.
    - reflexivity.
    - intros l ts A I2. exact I2.
    - reflexivity.
    - intros k e ts A I2. exists ts. now split.
    - now left.
    - intros l ts A I2. right. exists ts. now split.
    - reflexivity.
    - intros f ts A I2. exists ts. now split.
    - (* select *) intros r f w g hv o tr tf tw tg th to Ar Ir Af If Aw Iw Ag Ig Ah Ih Ao n Hn B h p rest F.
      assert (Fo : next after_having (to ++ rest)).
      { destruct Ao as [|l ts Ao]; cbn [app]; [|cbn; tauto]. eapply next_mono; [exact F|]. intros t G. each G; cbn; tauto. }
      assert (Fh : next after_group (th ++ to ++ rest)).
      { destruct hv as [e|]; [destruct Ih as (ts' & -> & _); right; reflexivity|cbn in Ih; subst th; eapply next_mono; [exact Fo|]; intros t G; now left]. }
      assert (Fg : next after_where (tg ++ th ++ to ++ rest)).
      { destruct Ig as [[-> ->]|(ts' & -> & _)]; [eapply next_mono; [exact Fh|]; intros t G; now left|right; reflexivity]. }
      assert (Fw : next after_list (tw ++ tg ++ th ++ to ++ rest)).
      { destruct w as [e|]; [destruct Iw as (ts' & -> & _); right; reflexivity|cbn in Iw; subst tw; eapply next_mono; [exact Fg|]; intros t G; now left]. }
      assert (Ff : next after_results (tf ++ tw ++ tg ++ th ++ to ++ rest)).
      { destruct f as [e|]; [destruct If as (ts' & -> & _); right; reflexivity|cbn in If; subst tf; eapply next_mono; [exact Fw|]; intros t G; now left]. }
      unfold parseSelect, parseSelect_. norm_toks. steps.
      transitivity (lrun id name (abind (ARet r) (fun results => abind (optionalReserved [kFROM]) (fun b =>
        abind (if b then (let+ f := parseFromList_ n (parseFromItem n) in ARet (Some f)) else ARet None) (fun from =>
        abind (optionalExpr_ (parseSubExpr n) kWHERE) (fun cond => abind (optionalReserved [kGROUP]) (fun b =>
        abind (if b then expectReserved [kBY] ;+ groupLoop n n [] else ARet []) (fun group =>
        abind (optionalExpr_ (parseSubExpr n) kHAVING) (fun having => abind (optionalReserved [kORDER]) (fun b =>
        abind (if b then expectReserved [kBY] ;+ parseOrderBy_ n else ARet []) (fun order => h (SSelect results from cond group having order)))))))))))
        (rev tr ++ p) (tf ++ tw ++ tg ++ th ++ to ++ rest)).
      { destruct r as [l|].
        - destruct Ir as ((t & r & E & E1) & Ir). transitivity (lrun id name (abind (resultLoop n n []) (fun l => abind (ARet (Some l)) (fun results => abind (optionalReserved [kFROM]) (fun b =>
            abind (if b then (let+ f := parseFromList_ n (parseFromItem n) in ARet (Some f)) else ARet None) (fun from =>
            abind (optionalExpr_ (parseSubExpr n) kWHERE) (fun cond => abind (optionalReserved [kGROUP]) (fun b =>
            abind (if b then expectReserved [kBY] ;+ groupLoop n n [] else ARet []) (fun group =>
            abind (optionalExpr_ (parseSubExpr n) kHAVING) (fun having => abind (optionalReserved [kORDER]) (fun b =>
            abind (if b then expectReserved [kBY] ;+ parseOrderBy_ n else ARet []) (fun order => h (SSelect results from cond group having order))))))))))))
            p (tr ++ tf ++ tw ++ tg ++ th ++ to ++ rest)).
          + rewrite E. cbn [app]. steps. change (parseResults_ n (parseSubExpr n)) with (resultLoop n n []). apply lrun_ext. intros l9 p9 a9. cbn [abind].
            repeat first [apply lrun_ext; intros | rewrite lrun_assoc; apply lrun_ext; intros | reflexivity].
          + use (Ir n n [] ltac:(lens) ltac:(lens)); [|exact Ff]. reflexivity.
        - cbn in Ir. subst tr. norm_toks. steps. cbn [rev app]. symmetry. steps. symmetry. repeat first [apply lrun_ext; intros | rewrite lrun_assoc; apply lrun_ext; intros | reflexivity]. }
      steps.
      assert (X : forall k o ts, C_opt_whole k o ts -> (length ts < n)%nat -> reads (optionalExpr_ (parseSubExpr n) k) ts o (fun l => after_expr l /\ next (no_word [k]) l)).
      { intros k o0 ts C Hl B0 h0 p0 rest0 [G1 G2]. unfold optionalExpr_. change (parseExpr_ (parseSubExpr n)) with (parseExpr n). destruct o0 as [e|].
        - destruct C as (ts' & -> & C). norm_toks. steps. rewrite l_optional_yes by (cbn; now rewrite Z.eqb_refl). lred. steps. use (C n ltac:(lens)); [|exact G1]. steps. past.
        - cbn in C. subst ts. norm_toks. steps. rewrite l_optional_no' by exact G2. steps. past. }
      assert (Y : forall (P : tok -> Prop) l k, next P l -> (forall t, P t -> is_reserved t [k] = false) -> next (no_word [k]) l) by (intros P l k G1 G2; eapply next_mono; [exact G1|exact G2]).
      assert (Z1 : after_expr (tg ++ th ++ to ++ rest)) by (apply results_expr; eapply next_mono; [exact Fg|]; intros t G; now do 2 left).
      assert (Z2 : after_expr (to ++ rest)) by (apply results_expr; eapply next_mono; [exact Fo|]; intros t G; now do 4 left).
      assert (Z3 : after_expr (th ++ to ++ rest)) by (apply results_expr; eapply next_mono; [exact Fh|]; intros t G; now do 3 left).
      transitivity (lrun id name (abind (optionalExpr_ (parseSubExpr n) kWHERE) (fun cond => abind (optionalReserved [kGROUP]) (fun b =>
        abind (if b then expectReserved [kBY] ;+ groupLoop n n [] else ARet []) (fun group =>
        abind (optionalExpr_ (parseSubExpr n) kHAVING) (fun having => abind (optionalReserved [kORDER]) (fun b =>
        abind (if b then expectReserved [kBY] ;+ parseOrderBy_ n else ARet []) (fun order => h (SSelect r f cond group having order))))))))
        (rev tf ++ rev tr ++ p) (tw ++ tg ++ th ++ to ++ rest)).
      { destruct f as [f|].
        - destruct If as (ts' & -> & _ & If). norm_toks. steps. use (If n ltac:(lens)); [|exact Fw]. past.
        - cbn in If. subst tf. cbn [app]. rewrite l_optional_no' by (eapply Y; [exact Fw|]; intros t G; each G; reflexivity). steps. past. }
      use (X _ _ _ Iw ltac:(lens)); [|split; [exact Z1|eapply Y; [exact Fg|]; intros t G; each G; reflexivity]].
      transitivity (lrun id name (
        abind (optionalExpr_ (parseSubExpr n) kHAVING) (fun having => abind (optionalReserved [kORDER]) (fun b =>
        abind (if b then expectReserved [kBY] ;+ parseOrderBy_ n else ARet []) (fun order => h (SSelect r f w g having order)))))
        (rev tg ++ rev tw ++ rev tf ++ rev tr ++ p) (th ++ to ++ rest)).
      { destruct Ig as [[-> ->]|(ts' & -> & _ & Ig)].
        - cbn [app]. rewrite l_optional_no' by (eapply Y; [exact Fh|]; intros t G; each G; reflexivity). steps. past.
        - norm_toks. steps. use (Ig n n [] ltac:(lens) ltac:(lens)); [|split; [exact Z3|eapply next_mono; [exact Fh|]; intros t G; each G; discriminate]]. past. }
      use (X _ _ _ Ih ltac:(lens)); [|split; [exact Z2|eapply Y; [exact Fo|]; intros t G; each G; reflexivity]].
      destruct Ao as [|l ts Ao].
      + cbn [app]. rewrite l_optional_no' by (eapply Y; [exact F|]; intros t G; each G; reflexivity). steps. past.
      + norm_toks. steps. use (reads_order id name n l ts Ao ltac:(lens)); [past|]. eapply next_mono; [exact F|]. intros t G. each G; (split; [split; reflexivity|discriminate]).
    (* queries *)
    - intros s ts A I2 n Hn B h p rest F. unfold optionalSubquery_. norm_toks. steps. change (parseSelect_ n (parseSubExpr n) (parseFromItem n)) with (parseSelect n). use (I2 n ltac:(lens)); [|exact F]. past.
    - intros l ts A I2 n Hn B h p rest F. unfold optionalSubquery_. norm_toks. steps. change (parseValues_ n (parseSubExpr n)) with (valuesLoop n n []). use (I2 n n [] ltac:(lens) ltac:(lens) Logic.I); [|eapply next_mono; [exact F|]; intros t G; each G; discriminate]. past.
    - intros s ts A n Hn B h p rest F. unfold optionalSubquery_. norm_toks. steps. use (reads_show id name s ts A); [|exact F]. past.
    - intros tn ts A n Hn B h p rest F. unfold optionalSubquery_. norm_toks. steps. use (reads_tableName id name tn ts A); [|eapply next_mono; [exact F|]; intros t G; each G; discriminate]. past.
    (* from operands *)
    - intros tn a ts ts' A A'. assert (E : exists i r, ts = KIdent i :: r) by (destruct A; eauto). destruct E as (i & r & E). split; [rewrite E; reflexivity|]. intros n Hn B h p rest F.
      unfold fromOperand_. norm_toks. steps. transitivity (lrun id name (abind parseTableAlias h) p (ts ++ ts' ++ rest)); [rewrite E; cbn [app]; steps; reflexivity|].
      unfold parseTableAlias. steps. use (reads_tableName id name tn ts A); [|apply (alias_next _ a); [exact A'|discriminate|discriminate|eapply next_mono; [exact F|]; intros t G; each G; discriminate]].
      steps. rewrite l_maybe_no' by (apply (alias_next _ a); [exact A'|discriminate|discriminate|eapply next_mono; [exact F|]; intros t G; each G; discriminate]). steps.
      use (reads_optAlias id name a ts' A'); [|eapply next_mono; [exact F|]; intros t G; each G; split; (exact Logic.I || reflexivity)]. past.
    - intros tn ix a ts ts' A A'. assert (E : exists i r, ts = KIdent i :: r) by (destruct A; eauto). destruct E as (i & r & E). split; [rewrite E; reflexivity|]. intros n Hn B h p rest F.
      unfold fromOperand_. norm_toks. steps. transitivity (lrun id name (abind parseTableAlias h) p (ts ++ KRune tAtSign :: KIdent ix :: ts' ++ rest)); [rewrite E; cbn [app]; steps; reflexivity|].
      unfold parseTableAlias. steps. use (reads_tableName id name tn ts A); [|discriminate]. steps.
      use (reads_optAlias id name a ts' A'); [|eapply next_mono; [exact F|]; intros t G; each G; split; (exact Logic.I || reflexivity)]. past.
    - intros s a l ts ts' ts'' A I2 A' A''. split; [reflexivity|]. intros n Hn B h p rest F. unfold fromOperand_. norm_toks. steps. use (I2 n ltac:(lens)); [|cbn; tauto]. unfold parseFromStmt_. steps.
      use (reads_someAlias id name true a ts' A'); [|destruct A''; [cbn [app]; eapply next_mono; [exact F|trivial]|exact Logic.I]].
      use (reads_columnAliases id name n l ts'' A'' ltac:(lens)); [|eapply next_mono; [exact F|]; intros t G; each G; discriminate]. past.
    - intros f ts A [I1 I2]. split; [reflexivity|]. intros n Hn B h p rest F. unfold fromOperand_. norm_toks. steps. unfold optionalSubquery_.
      assert (Q : forall k, In k [kSELECT; kVALUES; kSHOW; kTABLE] -> next (no_word [k]) (ts ++ KRune 41 :: rest)).
      { intros k Hk. apply next_app. eapply next_mono; [exact I1|]. intros t. apply is_reserved_sub. intros x [<-|[]]. exact Hk. }
      steps. rewrite l_optional_no' by (apply Q; cbn; tauto). steps. rewrite l_optional_no' by (apply Q; cbn; tauto). steps. rewrite l_optional_no' by (apply Q; cbn; tauto). steps. rewrite l_optional_no' by (apply Q; cbn; tauto). steps.
      use (I2 n ltac:(lens)); [|do 3 left; cbn; tauto]. steps. past.
    (* from items *)
    - intros f ts A [I1 I2]. split; [exact I1|]. intros [|n] Hn B h p rest F; [lia|]. rewrite l_fromItem. use (I2 n ltac:(lens)); [|eapply next_mono; [exact F|]; intros t G; now left].
      unfold joinRest, parseJoinType_. destruct rest as [|t rest]; [contradiction|]. cbn [next] in F.
      assert (Q : forall k, In k [kJOIN; kINNER; kLEFT; kRIGHT; kFULL; kCROSS] -> is_reserved t [k] = false) by (intros k [<-|[<-|[<-|[<-|[<-|[<-|[]]]]]]]; each F; reflexivity).
      steps. do 6 (rewrite l_optional_no by (apply Q; cbn; tauto); steps). past.
    - intros b l r ts ts' A [I1 I2] A' [J1 J2]. split; [now apply next_app|]. intros [|n] Hn B h p rest F; [lia|]. rewrite l_fromItem. norm_toks. use (I2 n ltac:(lens)); [|right; cbn; tauto].
      unfold joinRest, parseJoinType_. steps. use (J2 n ltac:(lens)); [|eapply next_mono; [exact F|]; intros t [G|[G|[G _]]]; [now left|right; now left|discriminate]].
      steps. rewrite l_optional_no' by (eapply next_mono; [exact F|]; intros t G; each G; reflexivity). steps.
      steps. rewrite l_optional_no' by (eapply next_mono; [exact F|]; intros t G; each G; reflexivity). steps. past.
    - intros jt l r e ts tj ts' te A [I1 I2] W A' [J1 J2] A'' K. split; [now apply next_app|]. intros [|n] Hn B h p rest F; [lia|]. rewrite l_fromItem. norm_toks.
      use (I2 n ltac:(lens)); [|destruct W; right; cbn; tauto].
      unfold joinRest, parseJoinType_. destruct W; norm_toks; steps; (use (J2 n ltac:(lens)); [|right; right; tauto]); steps; (use (K n ltac:(lens)); [|eapply item_expr; exact F]); steps; past.
    - intros jt l r c ts tj ts' tc A [I1 I2] W A' [J1 J2] A'' N. split; [now apply next_app|]. intros [|n] Hn B h p rest F; [lia|]. rewrite l_fromItem. norm_toks.
      use (I2 n ltac:(lens)); [|destruct W; right; cbn; tauto].
      unfold joinRest, parseJoinType_. destruct W; norm_toks; steps; (use (J2 n ltac:(lens)); [|right; right; tauto]); steps; (use (reads_distinct id name n c tc A'' N ltac:(lens)); [|exact Logic.I]); steps; destruct A''; past.
    - intros b f f' ts ts' A [I1 I2] A' [J1 J2]. split; [now apply next_app|]. intros n Hn B h p rest F. unfold parseFromList_. norm_toks. step1.
      use (I2 n ltac:(lens)); [|eapply next_mono; [exact (J1 rest F)|]; intros t [G|[G|[G _]]]; [now left|right; now left|discriminate]].
      use (J2 n n ltac:(lens) ltac:(lens)); [|exact F]. past.
    - intros f. split; [intros rest F; eapply next_mono; [exact F|]; intros t G; now left|]. intros n [|m] Hn Hm B h p rest F; [lia|]. unfold listLoop. norm_toks. steps.
      rewrite l_maybe_no' by (eapply next_mono; [exact F|]; intros t G; each G; discriminate). steps. past.
    - intros b f r f' ts ts' A [I1 I2] A' [J1 J2]. split; [intros rest F; right; now left|]. intros n [|m] Hn Hm B h p rest F; [lia|]. unfold listLoop. norm_toks. steps.
      use (I2 n ltac:(lens)); [|eapply next_mono; [exact (J1 rest F)|]; intros t [G|[G|[G _]]]; [now left|right; now left|discriminate]]. steps.
      use (J2 n m ltac:(lens) ltac:(lens)); [|exact F]. past.
  Qed.
End ReadsExpr.
