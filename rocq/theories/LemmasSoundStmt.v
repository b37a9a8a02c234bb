(** What the functions for statements have read when they return. *)

From Verif Require Import ModelParser SpecParser SpecAccepts LemmasBase LemmasListRun LemmasParserSafe LemmasSound LemmasSoundNames LemmasSoundExpr LemmasSoundDeref.

Section Statements.
  Variable id : bytes -> Z.
  Variable name : Z -> bytes.
  Local Notation sound := (sound id name).
  Local Notation sound_with := (sound_with id name).
  Local Notation R := KReserved.
  Local Notation I := KIdent.
  Local Notation LP := (KRune 40).
  Local Notation RP := (KRune 41).
  Local Notation Comma := (KRune 44).
  Local Notation Eq := (KRune 61).

  (** ** Constraints *)

  Lemma S_constraintName : sound parseConstraintName (fun x ts _ => a_constraint x ts).
  Proof.
    intros p a C. unfold parseConstraintName. st.
    - one_of H. st. st. fin [R kCONSTRAINT; I i]. constructor.
    - fin (@nil tok). constructor.
  Qed.

  Lemma keyEqual_same c : forall r, keyEqualLoop c r c r <> Some false.
  Proof.
    induction c as [|x c IH]; intros [|y r]; cbn [keyEqualLoop]; try discriminate; rewrite ?Z.eqb_refl, ?Bool.eqb_reflx; try discriminate. apply IH.
  Qed.
  Lemma keyEqual_no k1 k2 : keyEqual k1 k2 = Some false -> ik_columns k2 <> ik_columns k1 \/ ik_reverse k2 <> ik_reverse k1.
  Proof.
    destruct k1 as [u1 c1 r1], k2 as [u2 c2 r2]. unfold keyEqual. cbn [ik_columns ik_reverse]. intros H.
    destruct (list_eq_dec Z.eq_dec c2 c1) as [->|N]; [|now left]. destruct (list_eq_dec Bool.bool_dec r2 r1) as [->|N]; [|now right].
    rewrite Nat.eqb_refl in H. exfalso. exact (keyEqual_same _ _ H).
  Qed.
  Lemma s_checkKeys {A} key csts (h : unit -> act A) p a Q :
    (Forall (fun c => ik_columns (con_key c) <> ik_columns key \/ ik_reverse (con_key c) <> ik_reverse key) csts -> wpl id name (h tt) p a Q) ->
    wpl id name (abind (checkKeys key csts) h) p a Q.
  Proof.
    induction csts as [|c csts IH]; cbn [checkKeys]; intros H; [st; apply H; constructor|].
    destruct (keyEqual key (con_key c)) as [[|]|] eqn:E; try exact Logic.I. apply IH. intros K. apply H. constructor; [now apply keyEqual_no|exact K].
  Qed.
  Lemma contype_neqb x y : contype_eqb x y = false -> x <> y.
  Proof. destruct x, y; discriminate. Qed.
  Lemma contype_eqb_refl x : contype_eqb x x = true.
  Proof. destruct x; reflexivity. Qed.
  Lemma existsb_none {A} f (l : list A) : existsb f l = false -> Forall (fun x => f x = false) l.
  Proof. induction l as [|x l IH]; cbn; intros H; constructor; apply orb_false_iff in H; [apply H|now apply IH]. Qed.
  Lemma s_addKey {A} s ct cn key (h : ctable -> act A) p a Q :
    (key_may_follow (cb_csts s) ct cn key -> wpl id name (h (add_cst s (key_constraint ct cn key))) p a Q) ->
    wpl id name (abind (addKeyConstraint s ct cn key) h) p a Q.
  Proof.
    intros H. unfold addKeyConstraint. destruct (existsb _ _) eqn:E; [exact Logic.I|]. st. apply s_checkKeys. intros K. st. apply H.
    apply existsb_none in E. unfold key_may_follow. rewrite Forall_forall in *. intros c Hc. specialize (E c Hc). specialize (K c Hc). cbn beta in E.
    apply orb_false_iff in E. destruct E as [E1 E2]. split; [now apply Z.eqb_neq|]. split; [|exact K]. intros [E3 ->]. rewrite E3 in E2. discriminate.
  Qed.
  Lemma s_addColumn {A} s ct cn col (h : ctable -> act A) p a Q :
    (column_may_follow (cb_csts s) ct cn col -> wpl id name (h (add_cst s (column_constraint ct cn col))) p a Q) ->
    wpl id name (abind (addColumnConstraint s ct cn col) h) p a Q.
  Proof.
    intros H. unfold addColumnConstraint. destruct (existsb _ _) eqn:E; [exact Logic.I|]. st. apply H.
    apply existsb_none in E. unfold column_may_follow. rewrite Forall_forall in *. intros c Hc. specialize (E c Hc). cbn beta in E.
    apply orb_false_iff in E. destruct E as [E1 E2]. split; [now apply Z.eqb_neq|]. intros [<- <-]. rewrite Z.eqb_refl, contype_eqb_refl in E2. discriminate.
  Qed.

  Lemma S_columnNames l : sound_with l (columnNames l) (fun x ts _ => ts = [] /\ forall s, x ++ s = key_text name l s).
  Proof.
    assert (K : forall need l', incl l' need -> sound_with need (columnNames l') (fun x ts _ => ts = [] /\ forall s, x ++ s = key_text name l' s)).
    { clear l. intros need. induction l' as [|i l IH]; intros HI p a C N; cbn [columnNames].
      - fin (@nil tok). now split.
      - apply s_name; [apply N, HI; now left|]. eapply s_with; [apply IH|exact C|exact N|].
        + intros j Hj. apply HI. now right.
        + intros x ts a1 -> [-> K] _. fin (@nil tok). split; [reflexivity|]. intros s. cbn [key_text]. rewrite <- K. now rewrite <- !app_assoc. }
    apply K. apply incl_refl.
  Qed.
  Lemma s_makeName {A} cn key suffix (h : Z -> act A) p a Q : clean p -> has (ik_columns key) p ->
    wpl id name (h (key_name id name cn (ik_columns key) suffix)) p a Q -> wpl id name (abind (makeKeyConstraintName cn key suffix) h) p a Q.
  Proof.
    intros C N H. unfold makeKeyConstraintName, key_name in *. destruct (cn =? 0); [|now st]. st.
    eapply s_with; [apply S_columnNames|exact C|exact N|]. intros x ts a1 -> [-> K] _. st. rewrite K. exact H.
  Qed.
  Lemma s_columnName {A} cn c suffix (h : Z -> act A) p a Q : has [c] p ->
    wpl id name (h (key_name id name cn [c] suffix)) p a Q -> wpl id name (abind (if cn =? 0 then (let+ s := name_ c in intern_ (s ++ str "_" ++ suffix)) else ARet cn) h) p a Q.
  Proof.
    intros N H. unfold key_name in *. destruct (cn =? 0); [|now st]. st. apply s_name; [apply N; now left|]. st. exact H.
  Qed.

  (** ** Columns *)

  Definition cstate : Type := ctable * coltype * option expr.
  Definition same_table (s s' : ctable) : Prop := cb_cols s' = cb_cols s /\ cb_types s' = cb_types s /\ cb_defaults s' = cb_defaults s.
  Definition details (c : Z) (st : cstate) (ts : list tok) (st' : cstate) : Prop :=
    let '(s, ct, d) := st in let '(s', ct', d') := st' in
    same_table s s' /\
    forall ts' x, a_column_details id name c (zlen (cb_cols s) - 1) (ct', d', cb_csts s', cb_fks s') ts' x ->
      a_column_details id name c (zlen (cb_cols s) - 1) (ct, d, cb_csts s, cb_fks s) (ts ++ ts') x.
  Definition details_end (st : cstate) (ts : list tok) (st' : cstate) (_ : list tok) : Prop := st' = st /\ a_constraint 0 ts.
  Lemma details_looped c st ts x a : looped (details c) details_end st ts x a ->
    let '(s, ct, d) := st in let '(s', ct', d') := x in
    same_table s s' /\ a_column_details id name c (zlen (cb_cols s) - 1) (ct, d, cb_csts s, cb_fks s) ts (ct', d', cb_csts s', cb_fks s').
  Proof.
    induction 1 as [[[s ct] d] ts x a [-> H]|[[s ct] d] ts [[s1 ct1] d1] ts' [[s2 ct2] d2] a [T G] HL [T' IH]].
    - split; [now split|]. now constructor.
    - destruct T as (T1 & T2 & T3), T' as (T1' & T2' & T3'). split; [split; [congruence|split; congruence]|]. apply G. rewrite T1 in IH. exact IH.
  Qed.

  Lemma S_columnConstraint n c s ct d : sound_with [c] (columnConstraint n c (s, ct, d))
    (fun x ts a => match x with inl st' => details c (s, ct, d) ts st' | inr y => details_end (s, ct, d) ts y a end).
  Proof.
    intros p a C N. unfold columnConstraint. use_ S_constraintName as cn tc a1 H1.
    assert (T : same_table s s) by (now split).
    assert (T' : forall x, same_table s (add_cst s x)) by (now split).
    assert (N' : has [c] (rev tc ++ p)) by (now apply has_app).
    st.
    { one_of H. destruct d as [d|]; [exact Logic.I|]. destruct (cn =? 0) eqn:E.
      - apply Z.eqb_eq in E. subst cn. st. use_ S_expr as e te a1 H2. fin (tc ++ R kDEFAULT :: te). split; [exact T|]. intros ts' x K. rewrite <- app_assoc. cbn [app]. now apply acd_default with (e := e).
      - apply Z.eqb_neq in E. inversion H1; subst; [contradiction|]. apply s_addColumn. intros M. use_ S_expr as e te a1 H2. fin ([R kCONSTRAINT; I cn] ++ R kDEFAULT :: te). split; [apply T'|]. intros ts' x K. cbn [app]. now apply acd_named_default with (e := e). }
    st.
    { one_of H. st. one_of H. destruct ct as [t z f nn]. cbn [ct_notnull]. destruct nn; [exact Logic.I|]. destruct (cn =? 0) eqn:E.
      - apply Z.eqb_eq in E. subst cn. st. fin (tc ++ [R kNOT; R kNULL]). split; [exact T|]. intros ts' x K. rewrite <- app_assoc. cbn [app]. now apply acd_not_null.
      - apply Z.eqb_neq in E. inversion H1; subst; [contradiction|]. apply s_addColumn. intros M. fin [R kCONSTRAINT; I cn; R kNOT; R kNULL]. split; [apply T'|]. intros ts' x K. cbn [app]. now apply acd_named_not_null. }
    st.
    { one_of H. st. one_of H. apply (s_columnName cn c (str "primary")); [now apply (has_app _ [R kKEY; R kPRIMARY])|]. apply s_addKey. intros M. fin (tc ++ [R kPRIMARY; R kKEY]). split; [apply T'|].
      intros ts' x K. rewrite <- app_assoc. cbn [app]. now apply acd_primary with (cn := cn). }
    st.
    { one_of H. apply (s_columnName cn c (str "unique")); [now apply (has_app _ [R kUNIQUE])|]. apply s_addKey. intros M. fin (tc ++ [R kUNIQUE]). split; [apply T'|].
      intros ts' x K. rewrite <- app_assoc. cbn [app]. now apply acd_unique with (cn := cn). }
    st.
    { one_of H. st. use_ S_expr as e te a1 H2. st. fin (tc ++ R kCHECK :: LP :: te ++ [RP]). split; [apply T'|].
      intros ts' x K. replace ((tc ++ R kCHECK :: LP :: te ++ [RP]) ++ ts') with (tc ++ R kCHECK :: LP :: te ++ RP :: ts') by lists. now apply acd_check with (cn := cn) (e := e). }
    st.
    { one_of H. use_ S_tableName as tn tt1 a1 H2. st.
      - st. st. st. st. st. use_ S_onActions as fk to a3 (od & ou & H3 & ->). fin (tc ++ R kREFERENCES :: tt1 ++ (LP :: [I i] ++ [RP]) ++ to). split; [now split|].
        intros ts' x K. replace ((tc ++ R kREFERENCES :: tt1 ++ (LP :: [I i] ++ [RP]) ++ to) ++ ts') with (tc ++ R kREFERENCES :: tt1 ++ (LP :: [I i] ++ [RP]) ++ to ++ ts') by lists.
        eapply acd_references; [exact H1|exact H2|constructor; constructor|cbn; lia|exact H3|exact K].
      - st. use_ S_onActions as fk to a3 (od & ou & H3 & ->). fin (tc ++ R kREFERENCES :: tt1 ++ [] ++ to). split; [now split|].
        intros ts' x K. replace ((tc ++ R kREFERENCES :: tt1 ++ [] ++ to) ++ ts') with (tc ++ R kREFERENCES :: tt1 ++ [] ++ to ++ ts') by lists.
        eapply acd_references; [exact H1|exact H2|constructor|cbn; lia|exact H3|exact K]. }
    destruct (cn =? 0) eqn:E; [|exact Logic.I]. apply Z.eqb_eq in E. subst cn. fin tc. now split.
  Qed.

  Lemma S_column n s : sound (parseColumn n s) (fun x ts _ => forall tc, a_constraint 0 tc -> a_table_detail id name s (tc ++ ts) x).
  Proof.
    intros p a C. unfold parseColumn. st. destruct (mem i (cb_cols s)) eqn:E; [exact Logic.I|]. apply mem_in in E.
    use_ S_columnType as ct tt1 a1 H1.
    eapply s_with; [eapply s_loop with (Go := details i) (Stop := details_end)| | |].
    - intros [[s0 ct0] d0]. apply S_columnConstraint.
    - assumption.
    - apply has_app. intros j [<-|[]]. cbn. now rewrite Z.eqb_refl.
    - intros [[s1 ct1] d1] ts a2 -> HL CL. apply details_looped in HL. destruct HL as [(T1 & T2 & T3) HL]. cbn [add_col cb_cols cb_types cb_defaults cb_csts cb_fks] in *.
      fin (I i :: tt1 ++ ts). intros tc Htc. unfold add_type. rewrite T1, T2, T3.
      replace (zlen (cb_cols s ++ [i]) - 1) with (zlen (cb_cols s)) in HL by (unfold zlen; rewrite app_length; cbn [length]; lia).
      econstructor; eassumption.
  Qed.

  Lemma S_detail n s : sound (createDetail n s) (fun x ts _ => a_table_detail id name s ts x).
  Proof.
    intros p a C. unfold createDetail. use_ S_constraintName as cn tc a1 H1.
    assert (KEY : forall u key ts p, index_key u key ts -> has (ik_columns key) (rev ts ++ p)).
    { intros u key ts p0 H. apply has_in. intros i Hi. apply in_or_app. left. apply -> in_rev. destruct H. right. apply in_or_app. left. cbn [ik_columns] in Hi. eapply key_read; eassumption. }
    st.
    { one_of H. st. one_of H. use_ S_key as key tk a1 H2. apply s_makeName; [assumption|exact (KEY _ _ _ _ H2)|]. apply s_end, s_addKey. intros M.
      fin (tc ++ [R kPRIMARY; R kKEY] ++ tk). exact (atd_key id name s cn tc true key tk H1 H2 M). }
    st.
    { one_of H. use_ S_key as key tk a1 H2. apply s_makeName; [assumption|exact (KEY _ _ _ _ H2)|]. apply s_end, s_addKey. intros M.
      fin (tc ++ [R kUNIQUE] ++ tk). exact (atd_key id name s cn tc false key tk H1 H2 M). }
    st.
    { one_of H. st. use_ S_expr as e te a1 H2. st. fin (tc ++ R kCHECK :: LP :: te ++ [RP]). now apply atd_check. }
    st.
    { one_of H. st. one_of H. use_ S_foreignKey as fk tf a1 H2. fin (tc ++ R kFOREIGN :: R kKEY :: tf). eapply atd_foreign; eassumption. }
    destruct (cn =? 0) eqn:E; [|exact Logic.I]. apply Z.eqb_eq in E. subst cn. use_ S_column as x ts a2 H2. fin (tc ++ ts). now apply H2.
  Qed.

  Definition detail_go (s : ctable) (ts : list tok) (s' : ctable) : Prop := exists t, ts = t ++ [Comma] /\ a_table_detail id name s t s'.
  Definition detail_stop (s : ctable) (ts : list tok) (s' : ctable) (_ : list tok) : Prop := exists t, ts = t ++ [RP] /\ a_table_detail id name s t s'.
  Lemma S_createDetails n : sound (parseCreateDetails n) (fun x ts _ => exists ts', ts = ts' ++ [RP] /\ a_table_details id name noTable ts' x).
  Proof.
    apply sound_none. eapply sound_mono; [|eapply s_loop with (Go := detail_go) (Stop := detail_stop)].
    - intros x ts a H. induction H as [s ts x a (t & -> & H)|s ts s' ts' x a (t & -> & H) HL (t1 & -> & K)].
      + exists t. split; [reflexivity|]. now constructor.
      + exists (t ++ Comma :: t1). split; [lists|]. econstructor; eassumption.
    - intros s. apply sound_any. intros p a C. use_ S_detail as s1 ts a1 H1. st; cbn [Z.eqb Pos.eqb].
      + fin (ts ++ [Comma]). now exists ts.
      + fin (ts ++ [RP]). now exists ts.
  Qed.

  Lemma S_ifNotExists : sound ifNotExists (fun x ts _ => if_not_exists x ts).
  Proof.
    intros p a C. unfold ifNotExists. st.
    - one_of H. st. one_of H. st. one_of H. fin [R kIF; R kNOT; R kEXISTS]. constructor.
    - fin (@nil tok). constructor.
  Qed.
  Lemma S_ifExists : sound ifExists (fun x ts _ => if_exists x ts).
  Proof.
    intros p a C. unfold ifExists. st.
    - one_of H. st. one_of H. fin [R kIF; R kEXISTS]. constructor.
    - fin (@nil tok). constructor.
  Qed.

  (** ** Statements *)

  Section WithLibs.
  Context {X : FloatLib} {P : PrintLib}.
  Local Notation accepts := (accepts id name).

  Lemma S_createTable n : sound (parseCreateTable n) (fun x ts _ => accepts x (R kCREATE :: R kTABLE :: ts)).
  Proof.
    intros p a C. unfold parseCreateTable. use_ S_ifNotExists as b tb a1 H1. use_ S_tableName as tn tt1 a2 H2. st. use_ S_createDetails as s ts a3 (ts' & -> & H3).
    fin (tb ++ tt1 ++ LP :: ts' ++ [RP]). now constructor.
  Qed.

  Lemma S_alterAction n : sound (alterAction n) (fun x ts _ => a_alter_action x ts).
  Proof.
    intros p a C. unfold alterAction. st. one_of H; cbn [Z.eqb Pos.eqb].
    - use_ S_constraintName as cn tc a1 H1. st. one_of H. st. one_of H. use_ S_foreignKey as fk tf a1 H2. fin (R kADD :: tc ++ R kFOREIGN :: R kKEY :: tf). econstructor; eassumption.
    - st. one_of H. use_ S_ifExists as b tb a1 H1. st. fin (R kDROP :: R kCONSTRAINT :: tb ++ [I i]). destruct H1; constructor.
    - assert (K : forall p a, clean p -> wpl id name (let+ nam := expectIdentifier in expectReserved [kDROP] ;+
          let+ kw := expectReserved [kDEFAULT; kNOT] in
          if kw =? kDEFAULT then ARet (DropColumnConstraint nam DefaultConstraint)
          else expectReserved [kNULL] ;+ ARet (DropColumnConstraint nam NotNullConstraint)) p a (read_back p a (fun x ts _ => exists i, (x = DropColumnConstraint i DefaultConstraint /\ ts = [I i; R kDROP; R kDEFAULT]) \/ (x = DropColumnConstraint i NotNullConstraint /\ ts = [I i; R kDROP; R kNOT; R kNULL])))).
      { clear. intros p a C. st. st. one_of H. st. one_of H; cbn [Z.eqb Pos.eqb].
        - fin [I i; R kDROP; R kDEFAULT]. exists i. now left.
        - st. one_of H. fin [I i; R kDROP; R kNOT; R kNULL]. exists i. now right. }
      st.
      + one_of H. eapply wpl_mono; [|now apply K]. intros x p' a' (ts & -> & -> & C' & i & [[-> ->]|[-> ->]]).
        * fin (R kALTER :: [R kCOLUMN] ++ [I i; R kDROP; R kDEFAULT]). constructor. cbn. tauto.
        * fin (R kALTER :: [R kCOLUMN] ++ [I i; R kDROP; R kNOT; R kNULL]). constructor. cbn. tauto.
      + eapply wpl_mono; [|now apply K]. intros x p' a' (ts & -> & -> & C' & i & [[-> ->]|[-> ->]]).
        * fin (R kALTER :: [] ++ [I i; R kDROP; R kDEFAULT]). constructor. cbn. tauto.
        * fin (R kALTER :: [] ++ [I i; R kDROP; R kNOT; R kNULL]). constructor. cbn. tauto.
  Qed.

  Definition alter_go (l : list alteraction) (ts : list tok) (l' : list alteraction) : Prop := exists x t, ts = t ++ [Comma] /\ a_alter_action x t /\ l' = l ++ [x].
  Definition alter_stop (tn : tablename) (l : list alteraction) (ts : list tok) (s : stmt) (_ : list tok) : Prop := exists x, a_alter_action x ts /\ s = SAlterTable tn (l ++ [x]).
  Lemma alter_looped tn l ts x a : looped alter_go (alter_stop tn) l ts x a -> exists l', x = SAlterTable tn (l ++ l') /\ a_alter_actions l' ts.
  Proof.
    induction 1 as [l ts s a (x & H & ->)|l ts l1 ts' s a (x & t & -> & H & ->) HL (l' & -> & K)].
    - exists [x]. split; [reflexivity|]. now constructor.
    - exists (x :: l'). split; [now rewrite <- app_assoc|]. rewrite <- app_assoc. cbn [app]. now constructor.
  Qed.
  Lemma S_alterTable n : sound (parseAlterTable n) (fun x ts _ => accepts x (R kALTER :: R kTABLE :: ts)).
  Proof.
    intros p a C. unfold parseAlterTable. use_ S_tableName as tn tt1 a1 H1. eapply s_tail; [|assumption|].
    - apply sound_none. eapply s_loop with (Go := alter_go) (Stop := alter_stop tn). intros l. apply sound_any. clear. intros p a C. use_ S_alterAction as x ts a1 H1. st.
      + fin (ts ++ [Comma]). now exists x, ts.
      + fin ts. now exists x.
    - intros s ts a2 -> HL CL. apply alter_looped in HL. destruct HL as (l & -> & HL). fin (tt1 ++ ts). now constructor.
  Qed.

  Lemma S_createIndex n u : sound (parseCreateIndex n u) (fun x ts _ => accepts x (R kCREATE :: (if u : bool then [R kUNIQUE] else []) ++ R kINDEX :: ts)).
  Proof.
    intros p a C. unfold parseCreateIndex. use_ S_ifNotExists as b tb a1 H1. st. st. one_of H. use_ S_tableName as tn tt1 a1 H2. st.
    - one_of H. st. st. destruct (i0 =? iBTREE) eqn:E; [|now st]. apply Z.eqb_eq in E. subst i0. st. use_ S_key as key tk a1 H3. fin (tb ++ I i :: R kON :: tt1 ++ [R kUSING; I iBTREE] ++ tk). constructor; try assumption. cbn. tauto.
    - st. use_ S_key as key tk a2 H3. fin (tb ++ I i :: R kON :: tt1 ++ [] ++ tk). constructor; try assumption. cbn. tauto.
  Qed.

  Lemma S_delete n : sound (parseDelete n) (fun x ts _ => accepts x (R kDELETE :: R kFROM :: ts)).
  Proof.
    intros p a C. unfold parseDelete. use_ S_tableName as tn tt1 a1 H1. use_ S_where as w tw a2 H2. fin (tt1 ++ tw). now constructor.
  Qed.

  Definition tables_go (l : list tablename) (ts : list tok) (l' : list tablename) : Prop := exists x t, ts = Comma :: t /\ table_name x t /\ l' = l ++ [x].
  Definition tables_stop (l : list tablename) (ts : list tok) (l' : list tablename) (_ : list tok) : Prop := ts = [] /\ l' = l.
  Lemma tables_looped l ts x a : looped tables_go tables_stop l ts x a -> exists l', x = l ++ l' /\ forall tn t, table_name tn t -> table_names (tn :: l') (t ++ ts).
  Proof.
    induction 1 as [l ts s a (-> & ->)|l ts l1 ts' s a (x & t & -> & H & ->) HL (l' & -> & K)].
    - exists []. split; [now rewrite app_nil_r|]. intros tn t H. rewrite app_nil_r. now constructor.
    - exists (x :: l'). split; [now rewrite <- app_assoc|]. intros tn t0 H0. cbn [app]. constructor; [exact H0|]. now apply K.
  Qed.
  Lemma S_dropTable n : sound (parseDropTable n) (fun x ts _ => accepts x (R kDROP :: R kTABLE :: ts)).
  Proof.
    intros p a C. unfold parseDropTable. use_ S_ifExists as b tb a1 H1. use_ S_tableName as tn tt1 a2 H2. eapply s_bind; [|assumption|].
    - apply sound_none. eapply s_loop with (Go := tables_go) (Stop := tables_stop). intros l. apply sound_any. clear. intros p a C. st.
      + use_ S_tableName as x ts a1 H1. fin (Comma :: ts). now exists x, ts.
      + fin (@nil tok). now split.
    - intros l ts a3 -> HL CL. apply tables_looped in HL. destruct HL as (l' & -> & K). st.
      + one_of H. st. fin (tb ++ (tt1 ++ ts) ++ [R kCASCADE]). cbn [app]. constructor; [exact H1|]. now apply K.
      + st. st.
        * one_of H. st. fin (tb ++ (tt1 ++ ts) ++ [R kRESTRICT]). cbn [app]. constructor; [exact H1|now apply K|cbn; tauto].
        * st. fin (tb ++ (tt1 ++ ts) ++ []). cbn [app]. constructor; [exact H1|now apply K|cbn; tauto].
  Qed.
  Lemma S_dropIndex : sound parseDropIndex (fun x ts _ => accepts x (R kDROP :: R kINDEX :: ts)).
  Proof.
    intros p a C. unfold parseDropIndex. use_ S_ifExists as b tb a1 H1. st. st. one_of H. use_ S_tableName as tn tt1 a2 H2. fin (tb ++ I i :: R kON :: tt1). now constructor.
  Qed.

  Lemma S_orDefault n : sound (exprOrDefault n) (fun x ts _ => a_or_default id name x ts).
  Proof.
    intros p a C. unfold exprOrDefault. st. destruct (is_reserved t [kDEFAULT]) eqn:E.
    - apply is_reserved_in in E. destruct E as (k & -> & K). one_of K. fin [R kDEFAULT]. constructor.
    - st. generalize (t :: r). intros a0. use_ S_expr as e te a1 H1. fin te. now constructor.
  Qed.
  Definition irow_go (l : list (option expr)) (ts : list tok) (l' : list (option expr)) : Prop := exists x t, ts = t ++ [Comma] /\ a_or_default id name x t /\ l' = l ++ [x].
  Definition irow_stop (l : list (option expr)) (ts : list tok) (l' : list (option expr)) (_ : list tok) : Prop := exists x t, ts = t ++ [RP] /\ a_or_default id name x t /\ l' = l ++ [x].
  Lemma irow_looped l ts x a : looped irow_go irow_stop l ts x a -> exists l' ts', x = l ++ l' /\ ts = ts' ++ [RP] /\ a_insert_row id name l' ts'.
  Proof.
    induction 1 as [l ts s a (x & t & -> & H & ->)|l ts l1 ts' s a (x & t & -> & H & ->) HL (l' & t1 & -> & -> & K)].
    - exists [x], t. split; [reflexivity|]. split; [reflexivity|]. now constructor.
    - exists (x :: l'), (t ++ Comma :: t1). split; [now rewrite <- app_assoc|]. split; [lists|]. now constructor.
  Qed.
  Definition irows_go (l : list (list (option expr))) (ts : list tok) (l' : list (list (option expr))) : Prop := exists x t, ts = LP :: t ++ [RP; Comma] /\ a_insert_row id name x t /\ l' = l ++ [x].
  Definition irows_stop (tn : tablename) (c : list Z) (l : list (list (option expr))) (ts : list tok) (s : stmt) (_ : list tok) : Prop := exists x t, ts = LP :: t ++ [RP] /\ a_insert_row id name x t /\ s = SInsertValues tn c (l ++ [x]).
  Lemma irows_looped tn c l ts x a : looped irows_go (irows_stop tn c) l ts x a -> exists l', x = SInsertValues tn c (l ++ l') /\ a_insert_rows id name l' ts.
  Proof.
    induction 1 as [l ts s a (x & t & -> & H & ->)|l ts l1 ts' s a (x & t & -> & H & ->) HL (l' & -> & K)].
    - exists [x]. split; [reflexivity|]. now constructor.
    - exists (x :: l'). split; [now rewrite <- app_assoc|]. replace ((LP :: t ++ [RP; Comma]) ++ ts') with (LP :: t ++ RP :: Comma :: ts') by lists. now constructor.
  Qed.
  Lemma S_insert n : sound (parseInsert n) (fun x ts _ => accepts x (R kINSERT :: R kINTO :: ts)).
  Proof.
    intros p a C. unfold parseInsert. use_ S_tableName as tn tt1 a1 H1.
    assert (K : forall c p a, clean p -> wpl id name (expectReserved [kVALUES] ;+ aloop n (fun rows =>
    expectTokens [tLParen] ;+
    let+ row := aloop n (fun row =>
      let+ e := exprOrDefault n in
      let row := row ++ [e] in
      let+ r := expectTokens [tComma; tRParen] in
      if r =? tRParen then ARet (inr row) else ARet (inl row)) [] in
    let rows := rows ++ [row] in
    let+ comma := maybeToken tComma in
    if comma then ARet (inl rows) else ARet (inr (SInsertValues tn c rows))) []) p a (read_back p a (fun x ts _ => exists l t, ts = R kVALUES :: t /\ x = SInsertValues tn c l /\ a_insert_rows id name l t))).
    { clear. intros c p a C. st. one_of H. eapply s_tail; [|assumption|].
      - apply sound_none. eapply s_loop with (Go := irows_go) (Stop := irows_stop tn c). intros l. apply sound_any. clear. intros p a C. st. eapply s_bind; [|assumption|].
        + apply sound_none. eapply s_loop with (Go := irow_go) (Stop := irow_stop). intros w. apply sound_any. clear. intros p a C. use_ S_orDefault as x ts a1 H1. st; cbn [Z.eqb Pos.eqb].
          * fin (ts ++ [Comma]). now exists x, ts.
          * fin (ts ++ [RP]). now exists x, ts.
        + intros w ts a1 -> HL CL. apply irow_looped in HL. destruct HL as (w' & ts' & -> & -> & HL). cbn [app] in *. st.
          * fin (LP :: ts' ++ [RP; Comma]). now exists w', ts'.
          * fin (LP :: ts' ++ [RP]). now exists w', ts'.
      - intros x ts a1 -> HL CL. apply irows_looped in HL. destruct HL as (l' & -> & HL). fin (R kVALUES :: ts). now exists l', ts. }
    st.
    - use_ S_distinct as c tc a2 (tc' & -> & H2 & H3). eapply wpl_mono; [|now apply K]. intros x p' a' (ts & -> & -> & C' & l & t & -> & -> & H4).
      fin (tt1 ++ (LP :: tc' ++ [RP]) ++ R kVALUES :: t). constructor; try assumption. now constructor.
    - st. eapply wpl_mono; [|now apply K]. intros x p' a' (ts & -> & -> & C' & l & t & -> & -> & H4).
      fin (tt1 ++ [] ++ R kVALUES :: t). constructor; try assumption; constructor.
  Qed.

  Definition updates_go (l : list (Z * option expr)) (ts : list tok) (l' : list (Z * option expr)) : Prop := exists i x t, ts = I i :: Eq :: t ++ [Comma] /\ a_or_default id name x t /\ l' = l ++ [(i, x)].
  Definition updates_stop (l : list (Z * option expr)) (ts : list tok) (l' : list (Z * option expr)) (_ : list tok) : Prop := exists i x t, ts = I i :: Eq :: t /\ a_or_default id name x t /\ l' = l ++ [(i, x)].
  Lemma updates_looped l ts x a : looped updates_go updates_stop l ts x a -> exists l', x = l ++ l' /\ a_updates id name l' ts.
  Proof.
    induction 1 as [l ts s a (i & x & t & -> & H & ->)|l ts l1 ts' s a (i & x & t & -> & H & ->) HL (l' & -> & K)].
    - exists [(i, x)]. split; [reflexivity|]. now constructor.
    - exists ((i, x) :: l'). split; [now rewrite <- app_assoc|]. replace ((I i :: Eq :: t ++ [Comma]) ++ ts') with (I i :: Eq :: t ++ Comma :: ts') by lists. now constructor.
  Qed.
  Lemma S_update n : sound (parseUpdate n) (fun x ts _ => accepts x (R kUPDATE :: ts)).
  Proof.
    intros p a C. unfold parseUpdate. use_ S_tableName as tn tt1 a1 H1. st. one_of H. eapply s_bind; [|assumption|].
    - apply sound_none. eapply s_loop with (Go := updates_go) (Stop := updates_stop). intros l. apply sound_any. clear. intros p a C. st. st. use_ S_orDefault as x ts a1 H1. st.
      + fin (I i :: Eq :: ts ++ [Comma]). now exists i, x, ts.
      + fin (I i :: Eq :: ts). now exists i, x, ts.
    - intros l ts a1 -> HL CL. apply updates_looped in HL. destruct HL as (l' & -> & HL). use_ S_where as w tw a2 H2. fin (tt1 ++ R kSET :: ts ++ tw). now constructor.
  Qed.

  (** ** Options *)

  Lemma last_snoc g k v k' : last_value (g ++ [(k, v)]) k' = if k =? k' then Some v else last_value g k'.
  Proof.
    induction g as [|[j w] g IH]; cbn [app last_value].
    - destruct (k =? k'); reflexivity.
    - rewrite IH. destruct (k =? k'); reflexivity.
  Qed.
  Lemma set_option_fst l k v x : In x (map fst (set_option l k v)) <-> x = k \/ In x (map fst l).
  Proof.
    induction l as [|[j w] l IH]; cbn [set_option map fst In]; [intuition|]. destruct (j =? k) eqn:E; cbn [map fst In].
    - apply Z.eqb_eq in E. subst. intuition.
    - rewrite IH. intuition.
  Qed.
  Lemma set_option_nodup l k v : NoDup (map fst l) -> NoDup (map fst (set_option l k v)).
  Proof.
    induction l as [|[j w] l IH]; cbn [set_option map fst]; intros N; [constructor; [easy|constructor]|]. inversion N as [|? ? N1 N2]; subst. destruct (j =? k) eqn:E; cbn [map fst].
    - apply Z.eqb_eq in E. subst. exact N.
    - constructor; [|now apply IH]. rewrite set_option_fst. apply Z.eqb_neq in E. intuition.
  Qed.
  Lemma set_option_in l k v k' v' : NoDup (map fst l) -> In (k', v') (set_option l k v) <-> (k' = k /\ v' = v) \/ (k' <> k /\ In (k', v') l).
  Proof.
    induction l as [|[j w] l IH]; cbn [set_option map fst In]; intros N.
    - split; [intros [[= -> ->]|[]]; now left|intros [[-> ->]|[_ []]]; now left].
    - inversion N as [|? ? N1 N2]; subst. destruct (j =? k) eqn:E; cbn [In].
      + apply Z.eqb_eq in E. subst j. split.
        * intros [[= -> ->]|H]; [now left|]. right. split; [|now right]. intros ->. apply N1. apply in_map_iff. now exists (k, v').
        * intros [[-> ->]|[H1 [[= <- <-]|H2]]]; [now left|contradiction|now right].
      + apply Z.eqb_neq in E. rewrite IH by assumption. split.
        * intros [[= -> ->]|[H|[H1 H2]]]; auto.
        * intros [H|[H1 [H2|H2]]]; auto.
  Qed.
  Lemma options_set g l k v : options_of g l -> options_of (g ++ [(k, v)]) (set_option l k v).
  Proof.
    intros [N H]. split; [now apply set_option_nodup|]. intros k' v'. rewrite set_option_in by assumption. rewrite last_snoc. destruct (k =? k') eqn:E.
    - apply Z.eqb_eq in E. subst k'. split; [intros [[_ ->]|[K _]]; [reflexivity|contradiction]|]. intros [= ->]. now left.
    - apply Z.eqb_neq in E. rewrite <- H. split; [intros [[-> _]|[_ K]]; [contradiction|exact K]|]. intros K. right. split; [congruence|exact K].
  Qed.

  Definition options_go (l : list (Z * bytes)) (ts : list tok) (l' : list (Z * bytes)) : Prop :=
    exists i v t eq, ts = I i :: eq ++ [t] /\ a_option_value name v t /\ In eq [[]; [Eq]] /\ l' = set_option l i v.
  Definition options_stop (l : list (Z * bytes)) (ts : list tok) (l' : list (Z * bytes)) (_ : list tok) : Prop := ts = [] /\ l' = l /\ l <> [].
  Lemma options_looped l ts x a : looped options_go options_stop l ts x a -> forall g, options_of g l ->
    (ts = [] /\ x = l /\ l <> []) \/ exists g', a_db_options name g' ts /\ options_of (g ++ g') x.
  Proof.
    induction 1 as [l ts s a (-> & -> & N)|l ts l1 ts' s a (i & v & t & eq & -> & Hv & He & ->) HL IH]; intros g G; [now left|]. right.
    destruct (IH _ (options_set g l i v G)) as [(-> & -> & N)|(g' & D & O)].
    - exists [(i, v)]. rewrite app_nil_r. split; [now constructor|]. now apply options_set.
    - exists ((i, v) :: g'). rewrite <- app_assoc in O. split; [|exact O]. replace ((I i :: eq ++ [t]) ++ ts') with (I i :: eq ++ t :: ts') by lists. now constructor.
  Qed.

  Lemma S_options n : sound (parseOptions n) (fun x ts _ => exists g, a_db_options name g ts /\ options_of g x).
  Proof.
    apply sound_none. eapply sound_mono; [|eapply s_loop with (Go := options_go) (Stop := options_stop)].
    - intros x ts a H. destruct (options_looped _ _ _ _ H []) as [(-> & -> & K)|K]; [|contradiction|exact K]. split; [constructor|]. intros k v. cbn. split; [easy|discriminate].
    - intros s. apply sound_any. intros p a C. st.
      assert (OTHER : forall t, wpl id name (unscan_ ;+ match s with [] => AError | _ => ARet (inr s) end) (t :: p) r
        (read_back p (t :: r) (fun (x : list (Z * bytes) + list (Z * bytes)) ts a => match x with inl s' => options_go s ts s' | inr y => options_stop s ts y a end))).
      { intros t0. st. destruct s as [|o s]; [exact Logic.I|]. fin (@nil tok). split; [reflexivity|]. split; [reflexivity|discriminate]. }
      destruct t as [| |e|i|k|x|l|i|f|i|x]; try apply OTHER. clear OTHER H. assert (C' : clean (I i :: p)) by reflexivity.
      assert (K : forall eq p0 a0, clean p0 -> In eq [[]; [Eq]] -> p0 = rev eq ++ I i :: p -> I i :: r = I i :: eq ++ a0 -> wpl id name
        (let+ t := scan_ in
          let+ val :=
            match t with
            | KIdent id => name_ id
            | KString s => ARet s
            | KBytes l => ABytes l ARet
            | KInteger i => ARet (format_int i)
            | KFloat p => ARet (x_format_float p)
            | _ => AError
            end in
          ARet (inl (set_option s i val))) p0 a0 (read_back p (I i :: r) (fun (x : list (Z * bytes) + list (Z * bytes)) ts a => match x with inl s' => options_go s ts s' | inr y => options_stop s ts y a end))).
      { clear C'. intros eq p0 a0 C0 He -> Ea. injection Ea as ->. st. destruct t as [| |e|j|k|x|l|j|f|j|x]; try exact Logic.I.
        - apply s_name; [cbn; now rewrite Z.eqb_refl|]. fin (I i :: eq ++ [I j]). exists i, (name j), (I j), eq. repeat split; auto. apply aov_text. constructor.
        - st. fin (I i :: eq ++ [KString x]). exists i, x, (KString x), eq. repeat split; auto. apply aov_text. constructor.
        - intros b. st. fin (I i :: eq ++ [KBytes l]). exists i, b, (KBytes l), eq. repeat split; auto. apply aov_bytes.
        - st. fin (I i :: eq ++ [KInteger j]). exists i, (format_int j), (KInteger j), eq. repeat split; auto. apply aov_text. constructor.
        - st. fin (I i :: eq ++ [KFloat f]). exists i, (x_format_float f), (KFloat f), eq. repeat split; auto. apply aov_text. constructor. }
      st.
      + apply K with (eq := [Eq]); auto. cbn. tauto.
      + apply K with (eq := []); auto. cbn. tauto.
  Qed.
  Lemma S_createDatabase n : sound (parseCreateDatabase n) (fun x ts _ => accepts x (R kCREATE :: R kDATABASE :: ts)).
  Proof.
    intros p a C. unfold parseCreateDatabase. st. st.
    - one_of H. use_ S_options as l ts a1 (g & H1 & H2). fin (I i :: R kWITH :: ts). econstructor; eassumption.
    - st. fin [I i]. constructor.
  Qed.

  (** ** SET *)

  Lemma s_literal {A} e ts (h : bytes -> act A) p a Q : a_whole id name e ts -> (forall v, a_setting id name v ts -> wpl id name (h v) p a Q) ->
    wpl id name (abind (literalText e) h) p a Q.
  Proof.
    intros W H. destruct e as [v| | | | |]; try exact Logic.I. destruct v as [|b|s|s|f|i]; try exact Logic.I; cbn [literalText].
    - st. apply H. destruct b; now constructor.
    - st. apply H. now constructor.
    - intros b. apply H. eapply ast_bytes; exact W.
    - st. apply H. now constructor.
    - st. apply H. now constructor.
  Qed.
  Lemma S_set n : sound (parseSet n) (fun x ts _ => accepts x (R kSET :: ts)).
  Proof.
    intros p a C. unfold parseSet.
    assert (K : forall k var p0 a0, clean p0 -> (var = kDATABASE /\ k = R kDATABASE) \/ (var = kSCHEMA /\ k = R kSCHEMA) \/ k = I var -> p0 = k :: p -> a = k :: a0 -> wpl id name
      (let+ eq := maybeToken tEqual in
        (if eq then ARet tt else expectReserved [kTO] ;+ ARet tt) ;+
        let+ e := parseExpr n in
        let+ v := literalText e in
        ARet (SSet var v)) p0 a0 (read_back p a (fun x ts _ => accepts x (R kSET :: ts)))).
    { intros k var p0 a0 C0 Hk -> ->. st.
      - st. use_ S_expr as e te a1 H1. eapply s_literal; [exact H1|]. intros v Hv. fin (k :: Eq :: te). now constructor.
      - st. st. one_of H. st. use_ S_expr as e te a1 H1. eapply s_literal; [exact H1|]. intros v Hv. fin (k :: R kTO :: te). now constructor. }
    st.
    - one_of H. st. apply (K (R kDATABASE)); auto.
    - st. st.
      + one_of H. st. apply (K (R kSCHEMA)); auto.
      + st. apply (K (I i)); auto.
  Qed.
  Lemma S_use n : sound (parseUse n) (fun x ts _ => accepts x (R kUSE :: ts)).
  Proof.
    intros p a C. unfold parseUse. use_ S_expr as e te a1 H1. eapply s_literal; [exact H1|]. intros v Hv. fin te. now constructor.
  Qed.

  Lemma S_dropDatabase : sound parseDropDatabase (fun x ts _ => accepts x (R kDROP :: R kDATABASE :: ts)).
  Proof. intros p a C. unfold parseDropDatabase. use_ S_ifExists as b tb a1 H1. st. fin (tb ++ [I i]). now constructor. Qed.
  Lemma S_createSchema : sound parseCreateSchema (fun x ts _ => accepts x (R kCREATE :: R kSCHEMA :: ts)).
  Proof. intros p a C. unfold parseCreateSchema. use_ S_schemaName as sn ts a1 H1. fin ts. now constructor. Qed.
  Lemma S_dropSchema : sound parseDropSchema (fun x ts _ => accepts x (R kDROP :: R kSCHEMA :: ts)).
  Proof. intros p a C. unfold parseDropSchema. use_ S_ifExists as b tb a1 H1. use_ S_schemaName as sn ts a2 H2. fin (tb ++ ts). now constructor. Qed.
  Lemma S_explain n : sound (parseExplain n) (fun x ts _ => accepts x (R kEXPLAIN :: ts)).
  Proof.
    intros p a C. unfold parseExplain. st.
    - one_of H. st. one_of H. use_ S_select as s ts a1 H1. fin (R kVERBOSE :: R kSELECT :: ts). now constructor.
    - st. one_of H. use_ S_select as s ts a1 H1. fin (R kSELECT :: ts). now constructor.
  Qed.

  (** COPY, which is left out. *)
  Definition read_stmt (kw : Z) (x : option stmt) (ts : list tok) (_ : list tok) : Prop :=
    match x with
    | Some s => accepts s (R kw :: ts)
    | None => ts = [] /\ In kw [kDETACH; kEXECUTE; kPREPARE]
    end.
  Lemma s_some {A} (g : act stmt) Rs (h : option stmt -> act A) p a Q : sound g Rs -> clean p ->
    (forall x ts a', a = ts ++ a' -> Rs x ts a' -> clean (rev ts ++ p) -> wpl id name (h (Some x)) (rev ts ++ p) a' Q) ->
    wpl id name (abind (let+ s := g in ARet (Some s)) h) p a Q.
  Proof. intros S C H. st. eapply s_bind; [exact S|exact C|]. intros. st. now apply H. Qed.

  Lemma S_stmtOf n kw : In kw stmtKeywords -> kw <> kCOPY -> sound (parseStmtOf n kw) (read_stmt kw).
  Proof.
    intros Hk NC. unfold parseStmtOf.
    assert (NIL : In kw [kDETACH; kEXECUTE; kPREPARE] -> sound (ARet None) (read_stmt kw)).
    { intros K p a C. fin (@nil tok). now split. }
    one_of Hk; cbn [Z.eqb Pos.eqb]; try (apply NIL; cbn; tauto); clear NIL; intros p a C.
    - st. one_of H. use_ S_alterTable as s ts a1 H1. fin (R kTABLE :: ts). exact H1.
    - fin (@nil tok). constructor.
    - fin (@nil tok). constructor.
    - contradiction.
    - st. one_of H; cbn [Z.eqb Pos.eqb].
      + use_ S_createDatabase as s ts a1 H1. fin (R kDATABASE :: ts). exact H1.
      + use_ (S_createIndex n false) as s ts a1 H1. fin (R kINDEX :: ts). exact H1.
      + use_ S_createSchema as s ts a1 H1. fin (R kSCHEMA :: ts). exact H1.
      + use_ S_createTable as s ts a1 H1. fin (R kTABLE :: ts). exact H1.
      + st. one_of H. use_ (S_createIndex n true) as s ts a1 H1. fin (R kUNIQUE :: R kINDEX :: ts). exact H1.
    - st. one_of H. use_ S_delete as s ts a1 H1. fin (R kFROM :: ts). exact H1.
    - st. one_of H; cbn [Z.eqb Pos.eqb].
      + use_ S_dropDatabase as s ts a1 H1. fin (R kDATABASE :: ts). exact H1.
      + use_ S_dropIndex as s ts a1 H1. fin (R kINDEX :: ts). exact H1.
      + use_ S_dropSchema as s ts a1 H1. fin (R kSCHEMA :: ts). exact H1.
      + use_ S_dropTable as s ts a1 H1. fin (R kTABLE :: ts). exact H1.
    - use_ S_explain as s ts a1 H1. fin ts. exact H1.
    - st. one_of H. use_ S_insert as s ts a1 H1. fin (R kINTO :: ts). exact H1.
    - fin (@nil tok). constructor.
    - use_ S_select as s ts a1 H1. fin ts. now constructor.
    - use_ S_set as s ts a1 H1. fin ts. exact H1.
    - use_ S_show as s ts a1 H1. fin ts. now constructor.
    - st. one_of H. fin [R kTRANSACTION]. constructor.
    - use_ S_update as s ts a1 H1. fin ts. exact H1.
    - use_ S_use as s ts a1 H1. fin ts. exact H1.
    - use_ S_values as s ts a1 (l & -> & H1). fin ts. now constructor.
  Qed.

  (** A statement and what ends it, where it does not end at once. *)
  Definition parseOne (n : nat) : act (option stmt) :=
    let+ b := maybeToken tEndOfStatement in
    if b then AError
    else
      let+ kw := expectReserved stmtKeywords in
      if kw =? kCOPY then AError
      else
        let+ s := parseStmtOf n kw in
        expectEndOfStatement ;+ ARet s.
  Definition accepts_or_nil (x : option stmt) (ts : list tok) : Prop :=
    match x with Some s => accepts s ts | None => exists k, ts = [R k] /\ In k [kDETACH; kEXECUTE; kPREPARE] end.
  Lemma S_one n p a : clean p -> wpl id name (parseOne n) p a
    (fun x p' a' => exists ts t, a = ts ++ t :: a' /\ p' = t :: rev ts ++ p /\ over t = true /\ accepts_or_nil x ts).
  Proof.
    intros C. unfold parseOne. unfold maybeToken. st. st. destruct (rune_of t =? tEndOfStatement) eqn:E; [st; exact Logic.I|]. st. st. st. clear E H.
    generalize (t :: r). clear t r. intros a. st. destruct (k =? kCOPY) eqn:E; [exact Logic.I|]. apply Z.eqb_neq in E.
    eapply s_bind; [now apply S_stmtOf|assumption|]. intros x ts a' -> HR CL. unfold expectEndOfStatement. st. st.
    assert (K : over t = true -> wpl id name (ARet x) (t :: rev ts ++ R k :: p) r (fun x p' a' => exists ts0 t0, R k :: ts ++ t :: r = ts0 ++ t0 :: a' /\ p' = t0 :: rev ts0 ++ p /\ over t0 = true /\ accepts_or_nil x ts0)).
    { intros O. exists (R k :: ts), t. split; [reflexivity|]. split; [lists|]. split; [exact O|]. destruct x as [s|]; [exact HR|]. destruct HR as [-> HR]. now exists k. }
    destruct t; try (now st); st; now apply K.
  Qed.
  End WithLibs.
End Statements.
