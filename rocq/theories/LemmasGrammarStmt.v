(** The parser reads what the grammar says: statements. *)

From Verif Require Import ModelParser SpecGrammar LemmasBase LemmasRegroup LemmasListRun LemmasGrammar LemmasGrammarExpr LemmasCreate.

Ltac lens := repeat (progress (cbn [length] in *; rewrite ?app_length in * )); lia.
Ltac use0 H := erewrite (reads_use _ _ _ _ _ _ _ _ _ _ H); [lred|idtac|norm_toks; reflexivity].
Ltac ae := (split; [split; discriminate|split; [reflexivity|split; [reflexivity|discriminate]]]).

(** What may follow a statement. *)
Definition after_stmt (t : tok) : Prop := In t [KEnd; KEOF].

(** What may follow a part of the definition of a column. *)
Definition after_detail (t : tok) : Prop := In t [KRune tComma; KRune tRParen].
Definition detail_next (l : list tok) : Prop :=
  match l with
  | [] => False
  | t :: r =>
      In t [KRune tComma; KRune tRParen; KEnd; KEOF; KReserved kDEFAULT; KReserved kCONSTRAINT; KReserved kPRIMARY; KReserved kUNIQUE; KReserved kCHECK; KReserved kREFERENCES] \/
      (t = KReserved kNOT /\ next (eq (KReserved kNULL)) r)
  end.
Lemma detail_next_of (P : tok -> Prop) l : detail_next l -> (forall t, In t [KRune tComma; KRune tRParen; KEnd; KEOF; KReserved kDEFAULT; KReserved kCONSTRAINT; KReserved kPRIMARY; KReserved kUNIQUE; KReserved kCHECK; KReserved kREFERENCES; KReserved kNOT] -> P t) -> next P l.
Proof. destruct l as [|t l]; [contradiction|]. intros [H|[-> _]] K; cbn [next]; apply K; cbn [In] in *; tauto. Qed.
Lemma detail_expr l : detail_next l -> after_expr l.
Proof.
  destruct l as [|t l]; [contradiction|]. intros [H|[-> H]].
  - each H; ae.
  - split; [split; discriminate|split; [reflexivity|split; [reflexivity|]]]. intros _. destruct l; [contradiction|]. cbn in H. now subst.
Qed.

Section ReadsStmt.
  Variable id : bytes -> Z.
  Variable name : Z -> bytes.
  Notation reads := (reads id name).

  Lemma R_whole e ts : whole id name e ts -> forall n, (length ts < n)%nat -> reads (parseExpr n) ts e after_expr.
  Proof. apply (reads_grammar id name). Qed.
  Lemma R_select s ts : select id name s ts -> forall n, (length ts < n)%nat -> reads (parseSelect n) ts s (next after_query).
  Proof. apply (reads_grammar id name). Qed.
  Lemma R_rows l ts : rows id name l ts -> forall n, (length ts < n)%nat -> reads (parseValues n) ts (SValues l) (next (no_rune tComma)).
  Proof. intros H n Hn. destruct (reads_grammar id name) as (_ & _ & _ & _ & _ & K & _). exact (K l ts H n n [] Hn Hn Logic.I). Qed.
  Lemma R_opt_whole k o ts : opt_whole id name k o ts -> forall n, (length ts < n)%nat -> reads (optionalExpr_ (parseSubExpr n) k) ts o (fun l => after_expr l /\ next (no_word [k]) l).
  Proof.
    intros H n Hn B h p rest [G1 G2]. unfold optionalExpr_. change (parseExpr_ (parseSubExpr n)) with (parseExpr n). destruct H as [k|k e ts H].
    - norm_toks. steps. rewrite l_optional_no' by exact G2. steps. past.
    - norm_toks. steps. rewrite l_optional_yes by (cbn; now rewrite Z.eqb_refl). lred. use (R_whole e ts H n ltac:(lens)); [|exact G1]. steps. past.
  Qed.

  Lemma l_constraintName {B} cn tc p a (h : Z -> act B) : opt_constraint cn tc -> next (no_word [kCONSTRAINT]) a ->
    lrun id name (abind parseConstraintName h) p (tc ++ a) = lrun id name (h cn) (rev tc ++ p) a.
  Proof. intros [|i Hi] F; unfold parseConstraintName; norm_toks; steps; [rewrite l_optional_no' by exact F; steps|]; past. Qed.

  Lemma reads_refAction r ts : ref_action r ts -> reads parseRefAction ts r (fun _ => True).
  Proof. intros [ ] B h p rest _; unfold parseRefAction; norm_toks; steps; cbn [Z.eqb Pos.eqb]; steps; cbn [Z.eqb Pos.eqb]; steps; past. Qed.
  Lemma reads_onActions cn c tn rc d u ts n : on_actions d u ts -> (length ts < n)%nat ->
    reads (parseOnActions n (newForeignKey cn c tn rc)) ts
      {| fk_name := cn; fk_cols := c; fk_ref := tn; fk_refcols := rc; fk_ondelete := d; fk_onupdate := u |} (next (no_word [kON])).
  Proof.
    intros H Hn B h p rest F. unfold parseOnActions. destruct H as [|d ts Hd|u ts Hu|d u ts ts' Hd Hu|d u ts ts' Hd Hu].
    - destruct n as [|n]; [lens|]. norm_toks. steps. rewrite l_optional_no' by exact F. steps. past.
    - destruct n as [|[|n]]; [lens|lens|]. norm_toks. steps. cbn [Z.eqb Pos.eqb]. use (reads_refAction _ _ Hd); [|exact Logic.I]. steps. rewrite l_optional_no' by exact F. steps. past.
    - destruct n as [|[|n]]; [lens|lens|]. norm_toks. steps. cbn [Z.eqb Pos.eqb]. use (reads_refAction _ _ Hu); [|exact Logic.I]. steps. rewrite l_optional_no' by exact F. steps. past.
    - destruct n as [|[|[|n]]]; [lens|lens|lens|]. norm_toks. steps. cbn [Z.eqb Pos.eqb]. use (reads_refAction _ _ Hd); [|exact Logic.I]. steps. cbn [Z.eqb Pos.eqb].
      use (reads_refAction _ _ Hu); [|exact Logic.I]. steps. rewrite l_optional_no' by exact F. steps. past.
    - destruct n as [|[|[|n]]]; [lens|lens|lens|]. norm_toks. steps. cbn [Z.eqb Pos.eqb]. use (reads_refAction _ _ Hu); [|exact Logic.I]. steps. cbn [Z.eqb Pos.eqb].
      use (reads_refAction _ _ Hd); [|exact Logic.I]. steps. rewrite l_optional_no' by exact F. steps. past.
  Qed.
  Lemma on_next (Q : tok -> Prop) d u ts rest : on_actions d u ts -> Q (KReserved kON) -> next Q rest -> next Q (ts ++ rest).
  Proof. intros X0 H K; destruct X0; cbn; auto. Qed.
  Lemma opt_names_next (Q : tok -> Prop) l ts rest : opt_names l ts -> Q (KRune tLParen) -> next Q rest -> next Q (ts ++ rest).
  Proof. intros X0 H K; destruct X0; cbn; auto. Qed.
  Definition after_key (t : tok) : Prop := rune_of t <> tDot /\ rune_of t <> tLParen /\ is_reserved t [kON] = false.
  Lemma reads_foreignKey cn fk ts n : foreign_key cn fk ts -> (length ts < n)%nat -> reads (parseForeignKey n cn) ts fk (next after_key).
  Proof.
    intros [c tn rc d u t1 t2 t3 t4 Hc Ht Hr Ho] Hn B h p rest F. unfold parseForeignKey. norm_toks. steps.
    use (reads_columns id name n c t1 Hc ltac:(lens)); [|exact Logic.I]. steps.
    use (reads_tableName id name tn t2 Ht); [|eapply opt_names_next; [exact Hr|discriminate|eapply on_next; [exact Ho|discriminate|eapply next_mono; [exact F|intros t [G _]; exact G]]]].
    steps. change (parseOnActions n) with (fun fk => parseOnActions n fk).
    transitivity (lrun id name (abind (parseOnActions n (newForeignKey cn c tn rc)) h) (rev t3 ++ rev t2 ++ rev (KRune tLParen :: t1 ++ [KRune tRParen; KReserved kREFERENCES]) ++ p) (t4 ++ rest)).
    { destruct Hr as [|rc t3 Hr].
      - cbn [app]. rewrite l_maybe_no' by (eapply on_next; [exact Ho|discriminate|eapply next_mono; [exact F|intros t [_ [G _]]; exact G]]). steps. past.
      - norm_toks. steps. use (reads_columns id name n rc t3 Hr ltac:(lens)); [|exact Logic.I]. past. }
    use (reads_onActions cn c tn rc d u t4 n Ho ltac:(lens)); [|eapply next_mono; [exact F|intros t [_ [_ G]]; exact G]]. past.
  Qed.

  Lemma column_types_find i ct : In (i, ct) column_types -> findColumnType i = Some ct.
  Proof. intros H. cbn [In column_types] in H. repeat (destruct H as [H|H]; [injection H as <- <-; reflexivity|]). contradiction. Qed.
  Definition after_type (t : tok) : Prop := rune_of t <> tLParen /\ no_ident t.
  Lemma reads_columnType ct ts : column_type ct ts -> reads parseColumnType ts ct (next after_type).
  Proof.
    intros H B h p rest F. destruct rest as [|t rest]; [contradiction|]. destruct F as [F1 F2]. assert (F3 : is_name iPRECISION t = false) by (destruct t; try reflexivity; contradiction).
    unfold parseColumnType. destruct H as [i ct H|ct H|i ty s f n H T N]; norm_toks; steps; rewrite (column_types_find _ _ H).
    - destruct (i =? iDOUBLE); steps; [rewrite l_maybeIdentifier_no by exact F3; steps|]; destruct (ct_type ct); steps; past.
    - cbn [Z.eqb Pos.eqb]. steps. rewrite l_maybeIdentifier_yes. lred. steps. cbn [In column_types] in H. repeat (destruct H as [H|H]; [try discriminate H; injection H as <-|]); try contradiction. cbn [ct_type]. steps. past.
    - assert (E : (i =? iDOUBLE) = false).
      { apply Z.eqb_neq. intros ->. cbn [In column_types] in H. repeat (destruct H as [H|H]; [try discriminate H; injection H as <- <- <-; destruct T; discriminate|]). contradiction. }
      rewrite E. steps. cbn [ct_type]. unfold set_size, u32.
      destruct T as [-> | ->]; steps; rewrite l_expectInteger by exact N; lred; steps; cbn [ct_type ct_size ct_fixed ct_notnull]; rewrite Z.mod_small by lia; past.
  Qed.

  Definition keys_ok (cs : list (constraint expr)) : Prop := Forall (fun c => length (ik_reverse (con_key c)) = length (ik_columns (con_key c))) cs.
  Lemma contype_eqb_spec a b : contype_eqb a b = true <-> a = b.
  Proof. destruct a, b; cbn; split; congruence. Qed.
  Lemma l_addKey {B} s ct cn key p a (h : ctable -> act B) : keys_ok (cb_csts s) -> length (ik_reverse key) = length (ik_columns key) ->
    key_may_follow (cb_csts s) ct cn key ->
    lrun id name (abind (addKeyConstraint s ct cn key) h) p a = lrun id name (h (add_cst s (key_constraint ct cn key))) p a.
  Proof.
    intros K L M. unfold addKeyConstraint.
    replace (existsb _ (cb_csts s)) with false.
    - rewrite lrun_assoc. enough (E : forall B (h : unit -> act B), lrun id name (abind (checkKeys key (cb_csts s)) h) p a = lrun id name (h tt) p a) by (rewrite E; reflexivity).
      intros B0 h0. revert K M. generalize (cb_csts s). intros cs. induction cs as [|c cs IH]; intros K M; [reflexivity|]. inversion K as [|? ? K1 K2]; subst. inversion M as [|? ? M1 M2]; subst. cbn [checkKeys].
      destruct (keyEqual_spec key (con_key c) L K1) as (b & -> & Eb). destruct b; [|now apply IH]. exfalso. destruct M1 as (_ & _ & M1). destruct (proj1 Eb eq_refl) as [E1 E2]. destruct M1 as [M1|M1]; congruence.
    - symmetry. apply Bool.not_true_is_false. intros E. apply existsb_exists in E. destruct E as (c & E1 & E2). unfold key_may_follow in M. rewrite Forall_forall in M. destruct (M c E1) as (M1 & M2 & _).
      apply orb_true_iff in E2. destruct E2 as [E2|E2]; [apply Z.eqb_eq in E2; congruence|]. apply andb_true_iff in E2. rewrite !contype_eqb_spec in E2. tauto.
  Qed.
  Lemma l_addColumn {B} s ct cn col p a (h : ctable -> act B) : column_may_follow (cb_csts s) ct cn col ->
    lrun id name (abind (addColumnConstraint s ct cn col) h) p a = lrun id name (h (add_cst s (column_constraint ct cn col))) p a.
  Proof.
    intros M. unfold addColumnConstraint. replace (existsb _ (cb_csts s)) with false; [reflexivity|].
    symmetry. apply Bool.not_true_is_false. intros E. apply existsb_exists in E. destruct E as (c & E1 & E2). unfold column_may_follow in M. rewrite Forall_forall in M. destruct (M c E1) as (M1 & M2).
    apply orb_true_iff in E2. destruct E2 as [E2|E2]; [apply Z.eqb_eq in E2; congruence|]. apply andb_true_iff in E2. rewrite contype_eqb_spec, Z.eqb_eq in E2. destruct E2; subst; tauto.
  Qed.
  Lemma keys_snoc cs c : keys_ok cs -> length (ik_reverse (con_key c)) = length (ik_columns (con_key c)) -> keys_ok (cs ++ [c]).
  Proof. intros H K. apply Forall_app. split; [exact H|]. now repeat constructor. Qed.
  Lemma l_columnName {B} c cn suffix suffix' p a (h : Z -> act B) : In (KIdent c) p -> suffix' = str "_" ++ suffix ->
    lrun id name (abind (if cn =? 0 then (let+ s := name_ c in intern_ (s ++ suffix')) else ARet cn) h) p a = lrun id name (h (key_name id name cn [c] suffix)) p a.
  Proof. intros H ->. unfold key_name. destruct (cn =? 0); [|reflexivity]. rewrite lrun_assoc, l_name by exact H. reflexivity. Qed.
  Lemma l_keyName {B} cn key suffix p a (h : Z -> act B) : (forall c, In c (ik_columns key) -> In (KIdent c) p) ->
    lrun id name (abind (makeKeyConstraintName cn key suffix) h) p a = lrun id name (h (key_name id name cn (ik_columns key) suffix)) p a.
  Proof.
    intros H. unfold makeKeyConstraintName, key_name. destruct (cn =? 0); [|reflexivity]. rewrite lrun_assoc.
    enough (E : forall l B (h : bytes -> act B), (forall c, In c l -> In (KIdent c) p) -> exists t, (forall suffix, key_text name l suffix = t ++ suffix) /\ lrun id name (abind (columnNames l) h) p a = lrun id name (h t) p a).
    { destruct (E (ik_columns key) B (fun x => abind (intern_ (x ++ suffix)) h) H) as (t & E1 & E2). rewrite E2, E1. reflexivity. }
    clear. intros l. induction l as [|c l IH]; intros B h H; [exists []; split; reflexivity|]. cbn [columnNames key_text].
    destruct (IH B (fun r => h (name c ++ str "_" ++ r)) ltac:(intros; apply H; now right)) as (t & E1 & E2).
    exists (name c ++ str "_" ++ t). split; [intros; rewrite E1, <- !app_assoc; reflexivity|].
    rewrite lrun_assoc, l_name by (apply H; now left). lred. rewrite lrun_assoc. rewrite <- E2. reflexivity.
  Qed.

  Lemma key_columns_facts l rs ts : key_columns l rs ts -> length rs = length l /\ forall c, In c l -> In (KIdent c) ts.
  Proof.
    induction 1 as [i r ts D|i r ts l rs ts' D H [IH1 IH2]]; (split; [cbn; congruence|]); intros c [<-|C]; [now left|contradiction|now left|].
    right. apply in_or_app. right. right. now apply IH2.
  Qed.

  Lemma details_next c col st ts st' rest : column_details id name c col st ts st' -> next after_detail rest -> detail_next (ts ++ rest).
  Proof.
    intros H F. destruct H; try (destruct rest as [|t rest]; [contradiction|]; left; cbn [next] in F; unfold after_detail in F; cbn [In] in *; tauto); cbn [app];
      try (left; cbn [In]; tauto); try (right; split; reflexivity);
      match goal with H : opt_constraint _ _ |- _ => destruct H end; cbn [app]; left; cbn [In]; tauto.
  Qed.

  Lemma reads_details c col st ts st' : column_details id name c col st ts st' ->
    forall cols ty df n m, col = zlen cols - 1 -> (length ts < n)%nat -> (length ts < m)%nat ->
    let '(ct, d, cs, fs) := st in let '(ct', d', cs', fs') := st' in
    keys_ok cs -> keys_ok cs' /\
    forall B (h : _ -> act B) p rest, In (KIdent c) p -> next after_detail rest ->
    lrun id name (abind (aloop m (columnConstraint n c)
      ({| cb_cols := cols; cb_types := ty; cb_defaults := df; cb_csts := cs; cb_fks := fs |}, ct, d)) h) p (ts ++ rest) =
    lrun id name (h ({| cb_cols := cols; cb_types := ty; cb_defaults := df; cb_csts := cs'; cb_fks := fs' |}, ct', d')) (rev ts ++ p) rest.
  Proof.
    intros H. induction H as [[[[ct d] cs] fs]|ct cs fs e ts ts' st' W H IH|cn ct cs fs e ts ts' st' C M W H IH|t s f d cs fs ts' st' H IH|cn t s f d cs fs ts' st' C M H IH|cn tc ct d cs fs ts' st' C nn key M H IH
        |cn tc ct d cs fs ts' st' C nn key M H IH|cn tc ct d cs fs e ts ts' st' C W H IH|cn tc ct d cs fs tn rc od ou ts ts'' to ts' st' C Ht Hr Hl Ho H IH]; intros cols ty df n [|m] Hcol Hn Hm; try lia.
    - intros K. split; [exact K|]. intros B h p rest Hc F. norm_toks. steps. unfold columnConstraint, parseConstraintName. destruct rest as [|t rest]; [contradiction|]. cbn [next] in F. unfold after_detail in F.
      steps. each F; steps; cbn [Z.eqb]; past.
    - destruct st' as [[[ct' d'] cs'] fs']. intros K. destruct (IH cols ty df n m Hcol ltac:(lens) ltac:(lens) K) as (K' & IH'). split; [exact K'|]. intros B h p rest Hc F.
      norm_toks. steps. unfold columnConstraint, parseConstraintName. steps. cbn [Z.eqb]. steps. use (R_whole e ts W n ltac:(lens)); [|apply detail_expr; eapply details_next; eassumption]. steps.
      rewrite IH'; [past|apply in_or_app; right; now right|exact F].
    - destruct st' as [[[ct' d'] cs'] fs']. intros K. destruct (IH cols ty df n m Hcol ltac:(lens) ltac:(lens) ltac:(apply keys_snoc; [exact K|reflexivity])) as (K' & IH'). split; [exact K'|]. intros B h p rest Hc F.
      norm_toks. steps. unfold columnConstraint, parseConstraintName. steps. apply Z.eqb_neq in C. rewrite C. cbn [cb_cols]. rewrite <- Hcol. rewrite l_addColumn by exact M. lred. use (R_whole e ts W n ltac:(lens)); [|apply detail_expr; eapply details_next; eassumption]. steps. unfold add_cst. cbn [cb_cols cb_types cb_defaults cb_csts cb_fks].
      rewrite IH'; [past|apply in_or_app; right; do 3 right; exact Hc|exact F].
    - destruct st' as [[[ct' d'] cs'] fs']. intros K. destruct (IH cols ty df n m Hcol ltac:(lens) ltac:(lens) K) as (K' & IH'). split; [exact K'|]. intros B h p rest Hc F.
      norm_toks. steps. unfold columnConstraint, parseConstraintName. steps. cbn [ct_notnull Z.eqb]. steps. unfold set_notnull. cbn [ct_type ct_size ct_fixed].
      rewrite IH'; [past|do 2 right; exact Hc|exact F].
    - destruct st' as [[[ct' d'] cs'] fs']. intros K. destruct (IH cols ty df n m Hcol ltac:(lens) ltac:(lens) ltac:(apply keys_snoc; [exact K|reflexivity])) as (K' & IH'). split; [exact K'|]. intros B h p rest Hc F.
      norm_toks. steps. unfold columnConstraint, parseConstraintName. steps. cbn [ct_notnull]. apply Z.eqb_neq in C. rewrite C. cbn [cb_cols]. rewrite <- Hcol. steps. rewrite l_addColumn by exact M. steps. unfold set_notnull, add_cst. cbn [ct_type ct_size ct_fixed cb_cols cb_types cb_defaults cb_csts cb_fks].
      rewrite IH'; [past|do 4 right; exact Hc|exact F].
    - destruct st' as [[[ct' d'] cs'] fs']. intros K. destruct (IH cols ty df n m Hcol ltac:(lens) ltac:(lens) ltac:(apply keys_snoc; [exact K|reflexivity])) as (K' & IH'). split; [exact K'|]. intros B h p rest Hc F.
      norm_toks. steps. unfold columnConstraint. steps. rewrite (l_constraintName cn tc) by (exact C || reflexivity). steps. rewrite (l_columnName c cn (str "primary")); [|do 2 right; apply in_or_app; now right|reflexivity]. steps.
      rewrite l_addKey; [|exact K|reflexivity|exact M]. steps. unfold add_cst. cbn [cb_cols cb_types cb_defaults cb_csts cb_fks].
      rewrite IH'; [past|do 2 right; apply in_or_app; right; exact Hc|exact F].
    - destruct st' as [[[ct' d'] cs'] fs']. intros K. destruct (IH cols ty df n m Hcol ltac:(lens) ltac:(lens) ltac:(apply keys_snoc; [exact K|reflexivity])) as (K' & IH'). split; [exact K'|]. intros B h p rest Hc F.
      norm_toks. steps. unfold columnConstraint. steps. rewrite (l_constraintName cn tc) by (exact C || reflexivity). steps. rewrite (l_columnName c cn (str "unique")); [|do 1 right; apply in_or_app; now right|reflexivity]. steps.
      rewrite l_addKey; [|exact K|reflexivity|exact M]. steps. unfold add_cst. cbn [cb_cols cb_types cb_defaults cb_csts cb_fks].
      rewrite IH'; [past|do 1 right; apply in_or_app; right; exact Hc|exact F].
    - destruct st' as [[[ct' d'] cs'] fs']. intros K. destruct (IH cols ty df n m Hcol ltac:(lens) ltac:(lens) ltac:(apply keys_snoc; [exact K|reflexivity])) as (K' & IH'). split; [exact K'|]. intros B h p rest Hc F.
      norm_toks. steps. unfold columnConstraint. steps. rewrite (l_constraintName cn tc) by (exact C || reflexivity). steps. use (R_whole e ts W n ltac:(lens)); [|ae]. steps. unfold add_cst. cbn [cb_cols cb_types cb_defaults cb_csts cb_fks]. rewrite <- Hcol.
      rewrite IH'; [past|right; apply in_or_app; right; do 2 right; apply in_or_app; right; exact Hc|exact F].
    - destruct st' as [[[ct' d'] cs'] fs']. intros K. destruct (IH cols ty df n m Hcol ltac:(lens) ltac:(lens) K) as (K' & IH'). split; [exact K'|]. intros B h p rest Hc F.
      assert (D : detail_next (ts' ++ rest)) by (eapply details_next; eassumption).
      norm_toks. steps. unfold columnConstraint. steps. rewrite (l_constraintName cn tc) by (exact C || reflexivity). steps.
      use (reads_tableName id name tn ts Ht); [|eapply opt_names_next; [exact Hr|discriminate|eapply on_next; [exact Ho|discriminate|eapply detail_next_of; [exact D|intros t G; each G; discriminate]]]].
      steps.
      transitivity (lrun id name (abind (parseOnActions n (newForeignKey cn [c] tn rc)) (fun fk => abind (aloop m (columnConstraint n c) (add_fk {| cb_cols := cols; cb_types := ty; cb_defaults := df; cb_csts := cs; cb_fks := fs |} fk, ct, d)) h))
         (rev ts'' ++ rev ts ++ KReserved kREFERENCES :: rev tc ++ p) (to ++ ts' ++ rest)).
      { destruct Hr as [|rc t3 Hr].
        - cbn [app]. rewrite l_maybe_no' by (eapply on_next; [exact Ho|discriminate|eapply detail_next_of; [exact D|intros t G; each G; discriminate]]). steps. past.
        - destruct Hr as [i|i l t4 Hr]; [|destruct Hr; cbn in Hl; lia]. norm_toks. steps. past. }
      use (reads_onActions cn [c] tn rc od ou to n Ho ltac:(lens)); [|eapply detail_next_of; [exact D|intros t G; each G; reflexivity]].
      unfold add_fk. cbn [cb_cols cb_types cb_defaults cb_csts cb_fks]. rewrite IH'; [past|do 3 (apply in_or_app; right); right; apply in_or_app; right; exact Hc|exact F].
  Qed.

  Lemma key_next u key ts rest : index_key u key ts -> exists r, ts ++ rest = KRune tLParen :: r.
  Proof. intros [l rs ts0 _ _]. cbn. eauto. Qed.
  Lemma l_key {B} n u key ts (h : indexkey -> act B) p rest : index_key u key ts -> (length ts < n)%nat ->
    lrun id name (abind (parseKey n u) h) p (ts ++ rest) = lrun id name (h key) (rev ts ++ p) rest.
  Proof. intros H Hn. now apply reads_key. Qed.

  Lemma reads_tableDetail s ts s' n : table_detail id name s ts s' -> (length ts < n)%nat -> keys_ok (cb_csts s) ->
    keys_ok (cb_csts s') /\ reads (createDetail n s) ts s' (next after_detail).
  Proof.
    intros [s0 c ct t1 ct' d cs fs t2 N Hct Hd|s0 cn tc pr key t1 C Hk nn ct M|s0 cn tc e t1 C W|s0 cn tc fk t1 C Hf] Hn K.
    - destruct (reads_details _ _ _ _ _ Hd (cb_cols s0 ++ [c]) (cb_types s0) (cb_defaults s0) n n) as (K' & D); [unfold zlen; rewrite app_length; cbn [length]; lia|lens|lens|exact K|].
      split; [exact K'|]. intros B h p rest F. unfold createDetail, parseConstraintName. norm_toks. steps. cbn [Z.eqb]. unfold parseColumn. steps.
      assert (E : mem c (cb_cols s0) = false) by (apply Bool.not_true_is_false; intros E; apply existsb_exists in E; destruct E as (x & E1 & E2); apply Z.eqb_eq in E2; now subst).
      rewrite E. steps. use (reads_columnType ct t1 Hct); [|eapply detail_next_of; [eapply details_next; eassumption|intros t G; each G; split; (discriminate || exact Logic.I)]].
      steps. unfold add_col. rewrite D; [|apply in_or_app; right; now left|exact F]. steps. unfold add_type. cbn [cb_cols cb_types cb_defaults cb_csts cb_fks]. past.
    - assert (Lk : length (ik_reverse key) = length (ik_columns key) /\ forall c, In c (ik_columns key) -> In (KIdent c) t1).
      { clear -Hk. destruct Hk as [l rs t2 Hk _]. destruct (key_columns_facts _ _ _ Hk) as [F1 F2]. split; [exact F1|]. intros c Hc. right. apply in_or_app. left. now apply F2. }
      destruct Lk as [L1 L2]. split; [apply keys_snoc; [exact K|exact L1]|]. intros B h p rest F. unfold createDetail. subst nn ct.
      destruct pr; norm_toks; steps; rewrite (l_constraintName cn tc) by (exact C || reflexivity); steps; rewrite (l_key n true key t1) by (exact Hk || lens); lred; steps;
        (rewrite l_keyName by (intros c Hc; apply in_or_app; left; apply in_rev; rewrite rev_involutive; now apply L2)); steps; rewrite l_addKey by (exact K || exact L1 || exact M); past.
    - split; [apply keys_snoc; [exact K|reflexivity]|]. intros B h p rest F. unfold createDetail. norm_toks. steps. rewrite (l_constraintName cn tc) by (exact C || reflexivity). steps.
      use (R_whole e t1 W n ltac:(lens)); [|ae]. steps. past.
    - split; [exact K|]. intros B h p rest F. unfold createDetail. norm_toks. steps. rewrite (l_constraintName cn tc) by (exact C || reflexivity). steps.
      use (reads_foreignKey cn fk t1 n Hf ltac:(lens)); [|eapply next_mono; [exact F|]; intros t G; unfold after_detail in G; each G; (split; [discriminate|split; [discriminate|reflexivity]])]. steps. past.
  Qed.
  Lemma reads_tableDetails_from s ts s' : table_details id name s ts s' -> forall n m, (length ts < n)%nat -> (length ts < m)%nat -> keys_ok (cb_csts s) ->
    reads (aloop m (fun s =>
      let+ s := createDetail n s in
      let+ r := expectTokens [tComma; tRParen] in
      if r =? tRParen then ARet (inr s) else ARet (inl s)) s) (ts ++ [KRune tRParen]) s' (fun _ => True).
  Proof.
    induction 1 as [s ts s' H|s ts s1 ts' s' H H' IH]; intros n [|m] Hn Hm K; try lia; intros B h p rest _; norm_toks; steps.
    - destruct (reads_tableDetail _ _ _ n H Hn K) as [_ D]. use D; [|cbn; tauto]. steps. cbn [rune_of Z.eqb Pos.eqb]. steps. past.
    - destruct (reads_tableDetail _ _ _ n H ltac:(lens) K) as [K' D]. use D; [|cbn; tauto]. steps. cbn [rune_of Z.eqb Pos.eqb]. steps. use (IH n m ltac:(lens) ltac:(lens) K'); [|exact Logic.I]. past.
  Qed.

  Definition after_action (t : tok) : Prop := In t [KRune tComma; KEnd; KEOF].
  Lemma reads_alterAction a ts n : alter_action a ts -> (length ts < n)%nat -> reads (alterAction n) ts a (next after_action).
  Proof.
    intros [cn tc fk t1 C Hf|i|i|c tc C|c tc C] Hn B h p rest F; unfold alterAction; norm_toks; steps; cbn [Z.eqb Pos.eqb].
    - steps. rewrite (l_constraintName cn tc) by (exact C || reflexivity). steps.
      use (reads_foreignKey cn fk t1 n Hf ltac:(lens)); [|eapply next_mono; [exact F|]; intros t G; unfold after_action in G; each G; (split; [discriminate|split; [discriminate|reflexivity]])]. steps. past.
    - unfold ifExists. steps. past.
    - unfold ifExists. steps. past.
    - destruct C as [<-|[<-|[]]]; norm_toks; steps; cbn [Z.eqb Pos.eqb]; steps; past.
    - destruct C as [<-|[<-|[]]]; norm_toks; steps; cbn [Z.eqb Pos.eqb]; steps; past.
  Qed.
  Lemma reads_alterActions tn l ts : alter_actions l ts -> forall n m l0, (length ts < n)%nat -> (length ts < m)%nat ->
    reads (aloop m (fun actions =>
      let+ a := alterAction n in
      let actions := actions ++ [a] in
      let+ comma := maybeToken tComma in
      if comma then ARet (inl actions) else ARet (inr (SAlterTable tn actions))) l0) ts (SAlterTable tn (l0 ++ l)) (next after_stmt).
  Proof.
    induction 1 as [a ts H|a l ts ts' H H' IH]; intros n [|m] l0 Hn Hm; try lia; intros B h p rest F; norm_toks; steps.
    - use (reads_alterAction a ts n H Hn); [|eapply next_mono; [exact F|]; intros t G; unfold after_stmt in G; each G; cbn; tauto].
      steps. rewrite l_maybe_no' by (eapply next_mono; [exact F|]; intros t G; unfold after_stmt in G; each G; discriminate). steps. past.
    - use (reads_alterAction a ts n H ltac:(lens)); [|cbn; tauto]. steps. use (IH n m (l0 ++ [a]) ltac:(lens) ltac:(lens)); [|exact F]. rewrite <- app_assoc. past.
  Qed.

  Lemma reads_orDefault o ts n : or_default id name o ts -> (length ts < n)%nat -> reads (exprOrDefault n) ts o after_expr.
  Proof.
    intros [|e t1 W] Hn B h p rest F; unfold exprOrDefault; norm_toks; steps; [past|].
    assert (E : exists t r, t1 = t :: r /\ is_reserved t [kDEFAULT] = false).
    { destruct W as [e0 e t1 A _ _]. clear -A. assert (Q : forall e ts, operand id name e ts -> exists t r, ts = t :: r /\ is_reserved t [kDEFAULT] = false) by (intros e1 ts1 [ ]; eauto).
      destruct A; eauto; match goal with H : operand _ _ _ _ |- _ => destruct (Q _ _ H) as (t9 & r9 & -> & Q9) end; cbn [app]; eauto. }
    destruct E as (t & r & E & E1). transitivity (lrun id name (abind (parseExpr n) (fun e => h (Some e))) p (t1 ++ rest)).
    - rewrite E. cbn [app]. steps. rewrite E1. steps. reflexivity.
    - use (R_whole e t1 W n Hn); [|exact F]. past.
  Qed.
  Lemma reads_insertRow l ts : insert_row id name l ts -> forall n m l0, (length ts < n)%nat -> (length ts < m)%nat ->
    reads (aloop m (fun row =>
      let+ e := exprOrDefault n in
      let row := row ++ [e] in
      let+ r := expectTokens [tComma; tRParen] in
      if r =? tRParen then ARet (inr row) else ARet (inl row)) l0) (ts ++ [KRune tRParen]) (l0 ++ l) (fun _ => True).
  Proof.
    induction 1 as [o ts H|o l ts ts' H H' IH]; intros n [|m] l0 Hn Hm; try lia; intros B h p rest _; norm_toks; steps.
    - use (reads_orDefault o ts n H Hn); [|ae]. steps. cbn [rune_of Z.eqb Pos.eqb]. steps. past.
    - use (reads_orDefault o ts n H ltac:(lens)); [|ae]. steps. cbn [rune_of Z.eqb Pos.eqb]. steps. use (IH n m (l0 ++ [o]) ltac:(lens) ltac:(lens)); [|exact Logic.I]. rewrite <- app_assoc. past.
  Qed.
  Lemma reads_insertRows tn cols l ts : insert_rows id name l ts -> forall n m l0, (length ts < n)%nat -> (length ts < m)%nat ->
    reads (aloop m (fun rows =>
      expectTokens [tLParen] ;+
      let+ row := aloop n (fun row =>
        let+ e := exprOrDefault n in
        let row := row ++ [e] in
        let+ r := expectTokens [tComma; tRParen] in
        if r =? tRParen then ARet (inr row) else ARet (inl row)) [] in
      let rows := rows ++ [row] in
      let+ comma := maybeToken tComma in
      if comma then ARet (inl rows) else ARet (inr (SInsertValues tn cols rows))) l0) ts (SInsertValues tn cols (l0 ++ l)) (next after_stmt).
  Proof.
    induction 1 as [l ts H|l ls ts ts' H H' IH]; intros n [|m] l0 Hn Hm; try lia; intros B h p rest F; norm_toks; steps.
    - use (reads_insertRow l ts H n n [] ltac:(lens) ltac:(lens)); [|exact Logic.I]. steps. rewrite l_maybe_no' by (eapply next_mono; [exact F|]; intros t G; unfold after_stmt in G; each G; discriminate). steps. past.
    - use (reads_insertRow l ts H n n [] ltac:(lens) ltac:(lens)); [|exact Logic.I]. steps. use (IH n m (l0 ++ [l]) ltac:(lens) ltac:(lens)); [|exact F]. rewrite <- app_assoc. past.
  Qed.
  Lemma reads_updates l ts : updates id name l ts -> forall n m l0, (length ts < n)%nat -> (length ts < m)%nat ->
    reads (aloop m (fun l =>
      let+ id := expectIdentifier in
      expectTokens [tEqual] ;+
      let+ e := exprOrDefault n in
      let l := l ++ [(id, e)] in
      let+ comma := maybeToken tComma in
      if comma then ARet (inl l) else ARet (inr l)) l0) ts (l0 ++ l) (fun r => after_expr r /\ next (no_rune tComma) r).
  Proof.
    induction 1 as [i o ts H|i o l ts ts' H H' IH]; intros n [|m] l0 Hn Hm; try lia; intros B h p rest F; norm_toks; steps.
    - destruct F as [F1 F2]. use (reads_orDefault o ts n H ltac:(lens)); [|exact F1]. steps. rewrite l_maybe_no' by exact F2. steps. past.
    - use (reads_orDefault o ts n H ltac:(lens)); [|ae]. steps. use (IH n m (l0 ++ [(i, o)]) ltac:(lens) ltac:(lens)); [|exact F]. rewrite <- app_assoc. past.
  Qed.
  Lemma reads_tables_from l ts : table_names l ts -> forall n l0, (length ts < n)%nat ->
    reads (aloop n (fun tables =>
      let+ comma := maybeToken tComma in
      if comma then
        let+ tn := parseTableName in
        ARet (inl (tables ++ [tn]))
      else ARet (inr tables)) l0) (KRune tComma :: ts) (l0 ++ l) (next (fun t => rune_of t <> tComma /\ rune_of t <> tDot)).
  Proof.
    induction 1 as [tn ts H|tn l ts ts' H H' IH]; intros [|n] l0 Hn; try lia; intros B h p rest F; norm_toks; steps.
    - use (reads_tableName id name tn ts H); [|eapply next_mono; [exact F|]; now intros t [_ G]]. destruct n as [|n]; [exfalso; destruct H; lens|]. steps. rewrite l_maybe_no' by (eapply next_mono; [exact F|]; now intros t [G _]). steps. past.
    - use (reads_tableName id name tn ts H); [|discriminate]. steps. use (IH n (l0 ++ [tn]) ltac:(destruct H; lens)); [|exact F]. rewrite <- app_assoc. past.
  Qed.
  Lemma reads_tables l ts n : table_names l ts -> (length ts < n)%nat ->
    reads (let+ tn := parseTableName in aloop n (fun tables =>
      let+ comma := maybeToken tComma in
      if comma then
        let+ tn := parseTableName in
        ARet (inl (tables ++ [tn]))
      else ARet (inr tables)) [tn]) ts l (next (fun t => rune_of t <> tComma /\ rune_of t <> tDot)).
  Proof.
    intros [tn t1 H|tn l0 t1 t2 H H'] Hn B h p rest F; norm_toks; steps.
    - destruct n as [|n]; [lia|]. use (reads_tableName id name tn t1 H); [|eapply next_mono; [exact F|]; now intros t [_ G]]. steps. rewrite l_maybe_no' by (eapply next_mono; [exact F|]; now intros t [G _]). steps. past.
    - use (reads_tableName id name tn t1 H); [|discriminate]. use (reads_tables_from l0 t2 H' n [tn] ltac:(lens)); [|exact F]. past.
  Qed.

  Lemma l_ifExists {B} b tb p a (h : bool -> act B) : if_exists b tb -> next (no_word [kIF]) a ->
    lrun id name (abind ifExists h) p (tb ++ a) = lrun id name (h b) (rev tb ++ p) a.
  Proof. intros [ ] F; unfold ifExists; norm_toks; steps; [rewrite l_optional_no' by exact F; steps|]; past. Qed.
  Lemma l_ifNotExists {B} b tb p a (h : bool -> act B) : if_not_exists b tb -> next (no_word [kIF]) a ->
    lrun id name (abind ifNotExists h) p (tb ++ a) = lrun id name (h b) (rev tb ++ p) a.
  Proof. intros [ ] F; unfold ifNotExists; norm_toks; steps; [rewrite l_optional_no' by exact F; steps|]; past. Qed.

  Context {X : FloatLib} {P : PrintLib}.

  Lemma set_option_new l k v : ~ In k (map fst l) -> set_option l k v = l ++ [(k, v)].
  Proof.
    induction l as [|[k' v'] l IH]; intros N; [reflexivity|]. cbn [set_option]. cbn in N. destruct (k' =? k) eqn:E; [apply Z.eqb_eq in E; subst; tauto|]. rewrite IH by tauto. reflexivity.
  Qed.
  Lemma reads_options l ts : db_options name l ts -> forall m l0, (length ts < m)%nat -> NoDup (map fst (l0 ++ l)) ->
    reads (aloop m (fun options =>
      let+ t := scan_ in
      match t with
      | KIdent opt =>
          maybeToken tEqual ;+
          let+ t := scan_ in
          let+ val :=
            match t with
            | KIdent id => name_ id
            | KString s => ARet s
            | KBytes l => ABytes l ARet
            | KInteger i => ARet (format_int i)
            | KFloat p => ARet (x_format_float p)
            | _ => AError
            end in
          ARet (inl (set_option options opt val))
      | _ =>
          unscan_ ;+
          match options with
          | [] => AError
          | _ => ARet (inr options)
          end
      end) l0) ts (l0 ++ l) (next no_ident).
  Proof.
    assert (V : forall B v t p a (h : bytes -> act B), option_value name v t -> lrun id name (abind match t with
            | KIdent id => name_ id
            | KString s => ARet s
            | KBytes l => ABytes l ARet
            | KInteger i => ARet (format_int i)
            | KFloat p => ARet (x_format_float p)
            | _ => AError
            end h) (t :: p) a = lrun id name (h v) (t :: p) a /\ rune_of t <> tEqual).
    { intros B v t p a h [i|s|i|q]; (split; [|discriminate]); [apply l_name; now left|reflexivity..]. }
    induction 1 as [i v t eq Hv Heq|i v t eq l ts Hv Heq H IH]; intros [|m] l0 Hm N; try lia; intros B h p rest F.
    - destruct m as [|m]; [lens|].
      rewrite map_app in N. cbn [map fst] in N. apply NoDup_remove_2 in N. rewrite app_nil_r in N.
      destruct Heq as [<-|[<-|[]]]; norm_toks; steps; try (rewrite l_maybe_no by (exact (proj2 (V B v t [] [] (fun _ => ACrash) Hv)))); steps;
        rewrite (proj1 (V _ v t _ _ _ Hv)); steps; rewrite (set_option_new l0 i v N); (destruct rest as [|t' rest]; [contradiction|]); cbn [next] in F; steps; destruct t'; try contradiction; steps; (destruct l0; cbn [app]; steps; past).
    - rewrite map_app in N. cbn [map fst] in N. pose proof N as N'. apply NoDup_remove_2 in N.
      assert (N2 : ~ In i (map fst l0)) by (intros C; apply N; apply in_or_app; now left).
      destruct Heq as [<-|[<-|[]]]; norm_toks; steps; try (rewrite l_maybe_no by (exact (proj2 (V B v t [] [] (fun _ => ACrash) Hv)))); steps;
        rewrite (proj1 (V _ v t _ _ _ Hv)); steps; rewrite (set_option_new l0 i v N2);
        (use (IH m (l0 ++ [(i, v)]) ltac:(lens) ltac:(rewrite <- app_assoc, map_app; exact N')); [|exact F]); rewrite <- app_assoc; past.
  Qed.

  Lemma stmt_query l : next after_stmt l -> next after_query l.
  Proof. intros F. eapply next_mono; [exact F|]. intros t G. unfold after_stmt in G. each G; cbn; tauto. Qed.
  Lemma stmt_expr l : next after_stmt l -> after_expr l.
  Proof. destruct l as [|t l]; [contradiction|]. cbn [next]. intros F. unfold after_stmt in F. each F; ae. Qed.
  Lemma stmt_of (Q : tok -> Prop) l : next after_stmt l -> Q KEnd -> Q KEOF -> next Q l.
  Proof. intros F H1 H2. eapply next_mono; [exact F|]. intros t G. unfold after_stmt in G. each G; assumption. Qed.
  Ltac stmt := apply stmt_of; [assumption|try discriminate; try reflexivity; try exact Logic.I..].
  Ltac settle H n := destruct H; (match goal with W : whole _ _ _ _ |- _ => use (R_whole _ _ W n ltac:(lens)); [|now apply stmt_expr] end); cbn [literalText]; steps; past.
  Lemma opt_whole_cases k w tw : opt_whole id name k w tw -> tw = [] \/ exists ts, tw = KReserved k :: ts.
  Proof. intros [ ]; eauto. Qed.
  Lemma table_next (Q : tok -> Prop) tn ts rest : table_name tn ts -> (forall i, Q (KIdent i)) -> next Q (ts ++ rest).
  Proof. intros H K. destruct H; cbn; apply K. Qed.
  Lemma schema_next (Q : tok -> Prop) tn ts rest : schema_name tn ts -> (forall i, Q (KIdent i)) -> next Q (ts ++ rest).
  Proof. intros H K. destruct H; cbn; apply K. Qed.

  Lemma reads_says s ts n : says id name s ts -> (length ts < n)%nat -> reads (parseStmt n) ts (Some s) (next after_stmt).
  Proof.
    intros H Hn B h p rest F. unfold parseStmt, stmtKeywords.
    destruct H as [ | | | |s ts H|l ts H|s ts H|s ts H|s ts H|var v ts k K H|var v ts k K H|v ts H|tn l ls t1 t2 t3 H1 H2 N H3|tn l w t1 t2 tw H1 H2 H3|tn w t1 tw H1 H2|b tn s tb t1 t2 H1 H2 H3|u b i tn key tb t1 tu t2 H1 H2 H3 H4
      |i|i l ts H N|sn ts H|tn l t1 t2 H1 H2|b l tb t1 tr H1 H2 H3|b l tb t1 H1 H2|b i tn tb t1 H1 H2|b i tb H|b sn tb t1 H1 H2]; norm_toks; steps; unfold parseStmtOf; cbn [Z.eqb Pos.eqb]; cbv zeta.
    - steps. past.
    - steps. past.
    - steps. past.
    - steps. past.
    - use (R_select s ts H n ltac:(lens)); [|now apply stmt_query]. past.
    - use (R_rows l ts H n ltac:(lens)); [|stmt]. past.
    - use (reads_show id name s ts H); [|now apply stmt_query]. past.
    - unfold parseExplain. steps. use (R_select s ts H n ltac:(lens)); [|now apply stmt_query]. past.
    - unfold parseExplain. steps. use (R_select s ts H n ltac:(lens)); [|now apply stmt_query]. past.
    - unfold parseSet. steps. destruct K as [[-> ->]|[[-> ->]| ->]]; steps; settle H n.
    - unfold parseSet. steps. destruct K as [[-> ->]|[[-> ->]| ->]]; steps; settle H n.
    - unfold parseUse. steps. settle H n.
    - unfold parseInsert. steps. use (reads_tableName id name tn t1 H1); [|destruct H2; discriminate]. steps.
      transitivity (lrun id name (abind (abind (expectReserved [kVALUES]) (fun _ => aloop n (fun rows =>
          expectTokens [tLParen] ;+
          let+ row := aloop n (fun row =>
            let+ e := exprOrDefault n in
            let row := row ++ [e] in
            let+ r := expectTokens [tComma; tRParen] in
            if r =? tRParen then ARet (inr row) else ARet (inl row)) [] in
          let rows := rows ++ [row] in
          let+ comma := maybeToken tComma in
          if comma then ARet (inl rows) else ARet (inr (SInsertValues tn l rows))) [])) (fun s => h (Some s))) (rev t2 ++ rev t1 ++ KReserved kINTO :: KReserved kINSERT :: p) (KReserved kVALUES :: t3 ++ rest)).
      { destruct H2 as [|l t2 H2]; norm_toks; steps; [past|]. use (reads_distinct id name n l t2 H2 N ltac:(lens)); [|exact Logic.I]. symmetry. steps. symmetry. steps. past. }
      steps. use (reads_insertRows tn l ls t3 H3 n n [] ltac:(lens) ltac:(lens)); [|exact F]. past.
    - unfold parseUpdate. steps. use (reads_tableName id name tn t1 H1); [|discriminate]. steps.
      use (reads_updates l t2 H2 n n [] ltac:(lens) ltac:(lens)); [|destruct (opt_whole_cases _ _ _ H3) as [->|(t9 & ->)]; [split; [now apply stmt_expr|stmt]|split; [ae|discriminate]]].
      use (R_opt_whole kWHERE w tw H3 n ltac:(lens)); [|split; [now apply stmt_expr|stmt]]. past.
    - unfold parseDelete. steps. use (reads_tableName id name tn t1 H1); [|destruct (opt_whole_cases _ _ _ H2) as [->|(t9 & ->)]; [stmt|discriminate]]. use (R_opt_whole kWHERE w tw H2 n ltac:(lens)); [|split; [now apply stmt_expr|stmt]]. past.
    - steps. cbn [Z.eqb Pos.eqb]. unfold parseCreateTable. steps. rewrite (l_ifNotExists b tb) by (exact H1 || (eapply table_next; [exact H2|reflexivity])). lred. use (reads_tableName id name tn t1 H2); [|discriminate]. steps.
      use (reads_tableDetails_from noTable t2 s H3 n n ltac:(lens) ltac:(lens) ltac:(constructor)); [|exact Logic.I]. past.
    - assert (Q : forall B (h : stmt -> act B) p, lrun id name (abind (parseCreateIndex n u) h) p (tb ++ KIdent i :: KReserved kON :: t1 ++ tu ++ t2 ++ rest) = lrun id name (h (SCreateIndex i tn key b)) (rev (tb ++ KIdent i :: KReserved kON :: t1 ++ tu ++ t2) ++ p) rest).
      { clear B h p. intros B h p. unfold parseCreateIndex. steps. rewrite (l_ifNotExists b tb) by (exact H1 || reflexivity). steps.
        destruct (key_next _ _ _ rest H4) as (r & E).
        use (reads_tableName id name tn t1 H2); [|destruct H3 as [<-|[<-|[]]]; cbn [app]; [rewrite E|]; discriminate]. steps.
        destruct H3 as [<-|[<-|[]]]; cbn [app]; [rewrite l_optional_no' by (rewrite E; reflexivity)|]; steps; cbn [Z.eqb Pos.eqb]; steps; rewrite (l_key n u key t2) by (exact H4 || (destruct u; lens)); lred; steps; past. }
      destruct u; norm_toks; steps; cbn [Z.eqb Pos.eqb]; steps; rewrite Q; past.
    - steps. cbn [Z.eqb Pos.eqb]. unfold parseCreateDatabase. steps. rewrite l_optional_no' by stmt. steps. past.
    - steps. cbn [Z.eqb Pos.eqb]. unfold parseCreateDatabase. steps. use (reads_options l ts H n [] ltac:(lens) N); [|stmt]. past.
    - steps. cbn [Z.eqb Pos.eqb]. unfold parseCreateSchema. steps. use (reads_schemaName id name sn ts H); [|stmt]. past.
    - steps. unfold parseAlterTable. steps. use (reads_tableName id name tn t1 H1); [|destruct H2 as [a t2 [ ]|a l t2 t3 [ ] ?]; discriminate]. use (reads_alterActions tn l t2 H2 n n [] ltac:(lens) ltac:(lens)); [|exact F]. past.
    - steps. cbn [Z.eqb Pos.eqb]. unfold parseDropTable. steps. rewrite (l_ifExists b tb) by (exact H1 || (destruct H2 as [? ? H2|? ? ? ? H2 ?]; rewrite <- ?app_assoc; (eapply table_next; [exact H2|reflexivity]))). lred.
      transitivity (lrun id name (abind (let+ tn := parseTableName in aloop n (fun tables =>
        let+ comma := maybeToken tComma in
        if comma then
          let+ tn := parseTableName in
          ARet (inl (tables ++ [tn]))
        else ARet (inr tables)) [tn]) (fun tables => abind (optionalReserved [kCASCADE]) (fun cascade => abind (if cascade then ARet tt else optionalReserved [kRESTRICT] ;+ ARet tt) (fun _ => h (Some (SDropTable b cascade tables))))))
        (rev tb ++ KReserved kTABLE :: KReserved kDROP :: p) (t1 ++ tr ++ rest)).
      { steps. rewrite !lrun_assoc. repeat first [apply lrun_ext; intros | rewrite lrun_assoc; apply lrun_ext; intros | reflexivity]. }
      use0 (reads_tables l t1 n H2 ltac:(lens)); [|destruct H3 as [<-|[<-|[]]]; [cbn [app]; apply stmt_of; [exact F|split; discriminate..]|split; discriminate]].
      destruct H3 as [<-|[<-|[]]]; cbn [app]; [rewrite l_optional_no' by stmt; steps; rewrite l_optional_no' by stmt|]; steps; past.
    - steps. cbn [Z.eqb Pos.eqb]. unfold parseDropTable. steps. rewrite (l_ifExists b tb) by (exact H1 || (destruct H2 as [? ? H2|? ? ? ? H2 ?]; rewrite <- ?app_assoc; (eapply table_next; [exact H2|reflexivity]))). lred.
      transitivity (lrun id name (abind (let+ tn := parseTableName in aloop n (fun tables =>
        let+ comma := maybeToken tComma in
        if comma then
          let+ tn := parseTableName in
          ARet (inl (tables ++ [tn]))
        else ARet (inr tables)) [tn]) (fun tables => abind (optionalReserved [kCASCADE]) (fun cascade => abind (if cascade then ARet tt else optionalReserved [kRESTRICT] ;+ ARet tt) (fun _ => h (Some (SDropTable b cascade tables))))))
        (rev tb ++ KReserved kTABLE :: KReserved kDROP :: p) (t1 ++ KReserved kCASCADE :: rest)).
      { steps. rewrite !lrun_assoc. repeat first [apply lrun_ext; intros | rewrite lrun_assoc; apply lrun_ext; intros | reflexivity]. }
      use0 (reads_tables l t1 n H2 ltac:(lens)); [|split; discriminate]. steps. past.
    - steps. cbn [Z.eqb Pos.eqb]. unfold parseDropIndex. steps. rewrite (l_ifExists b tb) by (exact H1 || reflexivity). steps. use (reads_tableName id name tn t1 H2); [|stmt]. past.
    - steps. cbn [Z.eqb Pos.eqb]. unfold parseDropDatabase. steps. rewrite (l_ifExists b tb) by (exact H || reflexivity). steps. past.
    - steps. cbn [Z.eqb Pos.eqb]. unfold parseDropSchema. steps. rewrite (l_ifExists b tb) by (exact H1 || (eapply schema_next; [exact H2|reflexivity])). steps. use (reads_schemaName id name sn t1 H2); [|stmt]. past.
  Qed.

  (** A whole statement, with what ends it. *)
  Lemma lrun_statement s ts n t rest p : says id name s ts -> (length ts < n)%nat -> t = KEnd \/ t = KEOF ->
    lrun id name (parseWhole n) p (ts ++ t :: rest) = Some (Some s, t :: rev ts ++ p, rest).
  Proof.
    intros H Hn Ht. unfold parseWhole. rewrite (reads_says s ts n H Hn); [|cbn; destruct Ht as [->| ->]; tauto]. rewrite l_expectEnd by exact Ht. reflexivity.
  Qed.
End ReadsStmt.
