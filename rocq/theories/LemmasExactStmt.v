(** The parser accepts what the grammar of SpecAccepts has: statements. *)

From Verif Require Import ModelParser SpecAccepts LemmasBase LemmasRegroup LemmasListRun LemmasGrammar LemmasGrammarExpr LemmasGrammarStmt LemmasCreate LemmasExact LemmasExactExpr.

(** Constraints that differ in what is checked only. *)
Definition alike : list (constraint expr) -> list (constraint expr) -> Prop :=
  Forall2 (fun a b => con_type a = con_type b /\ con_name a = con_name b /\ con_colnum a = con_colnum b /\ con_key a = con_key b).
Lemma alike_snoc cs cs' c c' : alike cs cs' -> con_type c = con_type c' /\ con_name c = con_name c' /\ con_colnum c = con_colnum c' /\ con_key c = con_key c' -> alike (cs ++ [c]) (cs' ++ [c']).
Proof. intros H K. apply Forall2_app; [exact H|]. now repeat constructor. Qed.
Lemma alike_key cs cs' ct cn key : alike cs cs' -> key_may_follow cs ct cn key -> key_may_follow cs' ct cn key.
Proof. unfold key_may_follow. induction 1 as [|c c' cs cs' (E1 & E2 & E3 & E4) H IH]; intros K; inversion K; subst; constructor; [now rewrite <- E1, <- E2, <- E4|now apply IH]. Qed.
Lemma alike_column cs cs' ct cn col : alike cs cs' -> column_may_follow cs ct cn col -> column_may_follow cs' ct cn col.
Proof. unfold column_may_follow. induction 1 as [|c c' cs cs' (E1 & E2 & E3 & E4) H IH]; intros K; inversion K; subst; constructor; [now rewrite <- E1, <- E2, <- E3|now apply IH]. Qed.

Section ExactStmt.
  Variable id : bytes -> Z.
  Variable name : Z -> bytes.
  Variable over_ : nat.
  Notation lwp := (lwp id name over_).
  Notation takes := (takes id name over_).
  Notation via H := (reads_takes id name over_ _ _ _ _ H).
  Ltac fin := match goal with K : forall x, _ -> LemmasExact.lwp _ _ _ (_ x) _ _ |- _ => over K; try exact Logic.I; try (eexists; split; [reflexivity|]; (reflexivity || assumption)) end.

  Lemma T_whole e ts : a_whole id name e ts -> forall n, (length ts < n)%nat -> takes (parseExpr n) ts any after_expr.
  Proof. apply (takes_grammar id name over_). Qed.
  Lemma T_select s ts : a_select id name s ts -> forall n, (length ts < n)%nat -> takes (parseSelect n) ts (fun s => copies s = false) (next after_query).
  Proof. apply (takes_grammar id name over_). Qed.
  Lemma T_rows l ts : a_rows id name l ts -> forall n, (length ts < n)%nat -> takes (parseValues n) ts (fun s => copies s = false) (next (no_rune tComma)).
  Proof. intros H n Hn. destruct (takes_grammar id name over_) as (_ & _ & _ & _ & _ & K & _). exact (K l ts H n n [] Hn Hn Logic.I). Qed.
  Lemma T_opt_whole k o ts : a_opt_whole id name k o ts -> forall n, (length ts < n)%nat -> takes (optionalExpr_ (parseSubExpr n) k) ts any (fun l => after_expr l /\ next (no_word [k]) l).
  Proof. intros H n Hn. apply (w_opt_whole id name over_ k o); [|exact Hn]. revert H. apply (takes_grammar id name over_). Qed.

  Lemma w_constraintName {B} cn tc p a (h : Z -> act B) : a_constraint cn tc -> next (no_word [kCONSTRAINT]) a ->
    lwp (h cn) (rev tc ++ p) a -> lwp (abind parseConstraintName h) p (tc ++ a).
  Proof. intros [|i] F K; unfold parseConstraintName; norm_toks; wsteps; [apply w_optional_no'; [exact F|]; lred; wsteps; exact K|]. exact K. Qed.

  Lemma a_details_next c col st ts st' rest : a_column_details id name c col st ts st' -> next after_detail rest -> detail_next (ts ++ rest).
  Proof.
    intros H F. destruct H; try (match goal with H : a_constraint _ _ |- _ => destruct H end); cbn [app];
      try (left; cbn [In]; tauto); try (right; split; reflexivity).
    destruct rest as [|t rest]; [contradiction|]. left; cbn [next] in F; unfold after_detail in F; cbn [In] in *; tauto.
  Qed.

  Lemma w_addKey {B} s ct cn key p a (h : ctable -> act B) cs : alike cs (cb_csts s) -> keys_ok (cb_csts s) -> length (ik_reverse key) = length (ik_columns key) ->
    key_may_follow cs ct cn key -> lwp (h (add_cst s (key_constraint ct cn key))) p a -> lwp (abind (addKeyConstraint s ct cn key) h) p a.
  Proof. intros A K L M. apply w_same. apply l_addKey; [exact K|exact L|]. eapply alike_key; eassumption. Qed.
  Lemma w_addColumn {B} s ct cn col p a (h : ctable -> act B) cs : alike cs (cb_csts s) -> column_may_follow cs ct cn col ->
    lwp (h (add_cst s (column_constraint ct cn col))) p a -> lwp (abind (addColumnConstraint s ct cn col) h) p a.
  Proof. intros A M. apply w_same. apply l_addColumn. eapply alike_column; eassumption. Qed.
  Lemma w_columnName {B} c cn suffix suffix' p a (h : Z -> act B) : In (KIdent c) p -> suffix' = str "_" ++ suffix ->
    lwp (h (key_name id name cn [c] suffix)) p a -> lwp (abind (if cn =? 0 then (let+ s := name_ c in intern_ (s ++ suffix')) else ARet cn) h) p a.
  Proof. intros H E. apply w_same. now apply l_columnName. Qed.
  Lemma w_keyName {B} cn key suffix p a (h : Z -> act B) : (forall c, In c (ik_columns key) -> In (KIdent c) p) ->
    lwp (h (key_name id name cn (ik_columns key) suffix)) p a -> lwp (abind (makeKeyConstraintName cn key suffix) h) p a.
  Proof. intros H. apply w_same. now apply l_keyName. Qed.

  Ltac alk := apply alike_snoc; [assumption|now repeat split].
  Ltac kok := apply keys_snoc; [assumption|reflexivity].
  Ltac nex := match goal with K : forall fs2 cs2 d2, _ -> _ -> LemmasExact.lwp _ _ _ _ _ _ |- _ => intros fs9 cs9 d9 G9 H9; eapply w_past; [exact (K fs9 cs9 d9 G9 H9)|wpast] end.

  Lemma takes_details c col st ts st' : a_column_details id name c col st ts st' ->
    forall cols ty df n m, col = zlen cols - 1 -> (length ts < n)%nat -> (length ts < m)%nat ->
    let '(ct, d, cs, fs) := st in let '(ct', d', cs', fs') := st' in
    forall cs1 fs1 d1, keys_ok cs1 -> alike cs cs1 -> (d = None -> d1 = None) ->
    forall B (h : _ -> act B) p rest, In (KIdent c) p -> next after_detail rest ->
    (forall fs2 cs2 d2, keys_ok cs2 -> alike cs' cs2 ->
      lwp (h ({| cb_cols := cols; cb_types := ty; cb_defaults := df; cb_csts := cs2; cb_fks := fs2 |}, ct', d2)) (rev ts ++ p) rest) ->
    lwp (abind (aloop m (columnConstraint n c)
      ({| cb_cols := cols; cb_types := ty; cb_defaults := df; cb_csts := cs1; cb_fks := fs1 |}, ct, d1)) h) p (ts ++ rest).
  Proof.
    intros H. induction H as [[[[ct d] cs] fs] tc C|tc ct cs fs e ts ts' st' C W H IH|cn ct cs fs e ts ts' st' C M W H IH|tc t s f d cs fs ts' st' C H IH|cn t s f d cs fs ts' st' C M H IH|cn tc ct d cs fs ts' st' C nn key M H IH
        |cn tc ct d cs fs ts' st' C nn key M H IH|cn tc ct d cs fs e ts ts' st' C W H IH|cn tc ct d cs fs tn rc od ou ts ts'' to ts' st' C Ht Hr Hl Ho H IH]; intros cols ty df n [|m] Hcol Hn Hm; try lia;
      try (destruct st' as [[[ct' d'] cs'] fs']); intros cs1 fs1 d1 K A D B h p rest Hc F KK.
    - norm_toks. wsteps. unfold columnConstraint. wsteps. apply (w_constraintName 0 tc); [exact C|eapply next_mono; [exact F|]; intros t G; unfold after_detail in G; each G; reflexivity|].
      destruct rest as [|t rest]; [contradiction|]. cbn [next] in F. unfold after_detail in F.
      wsteps. each F; wsteps; cbn [Z.eqb]; wsteps; now apply KK.
    - norm_toks. wsteps. unfold columnConstraint. wsteps. apply (w_constraintName 0 tc); [exact C|reflexivity|]. wsteps. rewrite (D eq_refl). wsteps. cbn [Z.eqb]. wsteps.
      wuse (T_whole e ts W n ltac:(lens)); [apply detail_expr; eapply a_details_next; eassumption|]. intros x _. wsteps.
      apply (IH cols ty df n m Hcol ltac:(lens) ltac:(lens) cs1 fs1); [exact K|exact A|discriminate|apply in_or_app; right; right; apply in_or_app; now right|exact F|nex].
    - norm_toks. wsteps. unfold columnConstraint, parseConstraintName. wsteps. rewrite (D eq_refl). apply Z.eqb_neq in C. rewrite C. cbn [cb_cols]. rewrite <- Hcol. wsteps. eapply w_addColumn; [exact A|exact M|]. lred.
      wuse (T_whole e ts W n ltac:(lens)); [apply detail_expr; eapply a_details_next; eassumption|]. intros x _. wsteps. unfold add_cst. cbn [cb_cols cb_types cb_defaults cb_csts cb_fks].
      apply (IH cols ty df n m Hcol ltac:(lens) ltac:(lens)); [kok|alk|discriminate|apply in_or_app; right; do 3 right; exact Hc|exact F|nex].
    - norm_toks. wsteps. unfold columnConstraint. wsteps. apply (w_constraintName 0 tc); [exact C|reflexivity|]. wsteps. cbn [ct_notnull Z.eqb]. wsteps. unfold set_notnull. cbn [ct_type ct_size ct_fixed].
      apply (IH cols ty df n m Hcol ltac:(lens) ltac:(lens)); [exact K|exact A|exact D|do 2 right; apply in_or_app; now right|exact F|nex].
    - norm_toks. wsteps. unfold columnConstraint, parseConstraintName. wsteps. cbn [ct_notnull]. apply Z.eqb_neq in C. rewrite C. cbn [cb_cols]. rewrite <- Hcol. wsteps. eapply w_addColumn; [exact A|exact M|]. lred. wsteps.
      unfold set_notnull, add_cst. cbn [ct_type ct_size ct_fixed cb_cols cb_types cb_defaults cb_csts cb_fks].
      apply (IH cols ty df n m Hcol ltac:(lens) ltac:(lens)); [kok|alk|exact D|do 4 right; exact Hc|exact F|nex].
    - norm_toks. wsteps. unfold columnConstraint. wsteps. apply (w_constraintName cn tc); [exact C|reflexivity|]. wsteps. apply (w_columnName c cn (str "primary")); [do 2 right; apply in_or_app; now right|reflexivity|]. wsteps.
      eapply w_addKey; [exact A|exact K|reflexivity|exact M|]. lred. wsteps. unfold add_cst. cbn [cb_cols cb_types cb_defaults cb_csts cb_fks].
      apply (IH cols ty df n m Hcol ltac:(lens) ltac:(lens)); [kok|alk|exact D|do 2 right; apply in_or_app; right; exact Hc|exact F|nex].
    - norm_toks. wsteps. unfold columnConstraint. wsteps. apply (w_constraintName cn tc); [exact C|reflexivity|]. wsteps. apply (w_columnName c cn (str "unique")); [do 1 right; apply in_or_app; now right|reflexivity|]. wsteps.
      eapply w_addKey; [exact A|exact K|reflexivity|exact M|]. lred. wsteps. unfold add_cst. cbn [cb_cols cb_types cb_defaults cb_csts cb_fks].
      apply (IH cols ty df n m Hcol ltac:(lens) ltac:(lens)); [kok|alk|exact D|do 1 right; apply in_or_app; right; exact Hc|exact F|nex].
    - norm_toks. wsteps. unfold columnConstraint. wsteps. apply (w_constraintName cn tc); [exact C|reflexivity|]. wsteps. wuse (T_whole e ts W n ltac:(lens)); [ae|]. intros x _. wsteps. unfold add_cst. cbn [cb_cols cb_types cb_defaults cb_csts cb_fks].
      apply (IH cols ty df n m Hcol ltac:(lens) ltac:(lens)); [kok|apply alike_snoc; [exact A|cbn; rewrite Hcol; now repeat split]|exact D|right; apply in_or_app; right; do 2 right; apply in_or_app; right; exact Hc|exact F|nex].
    - assert (DD : detail_next (ts' ++ rest)) by (eapply a_details_next; eassumption).
      norm_toks. wsteps. unfold columnConstraint. wsteps. apply (w_constraintName cn tc); [exact C|reflexivity|]. wsteps.
      wuse (via (reads_tableName id name tn ts Ht)); [eapply opt_names_next; [exact Hr|discriminate|eapply on_next; [exact Ho|discriminate|eapply detail_next_of; [exact DD|intros t G; each G; discriminate]]]|].
      intros x <-. wsteps.
      assert (Q : lwp (abind (parseOnActions n (newForeignKey cn [c] tn rc)) (fun fk => abind (aloop m (columnConstraint n c) (add_fk {| cb_cols := cols; cb_types := ty; cb_defaults := df; cb_csts := cs1; cb_fks := fs1 |} fk, ct, d1)) h))
         (rev ts'' ++ rev ts ++ KReserved kREFERENCES :: rev tc ++ p) (to ++ ts' ++ rest)).
      { wuse (via (reads_onActions id name cn [c] tn rc od ou to n Ho ltac:(lens))); [eapply detail_next_of; [exact DD|intros t G; each G; reflexivity]|]. intros x _.
        unfold add_fk. cbn [cb_cols cb_types cb_defaults cb_csts cb_fks].
        apply (IH cols ty df n m Hcol ltac:(lens) ltac:(lens)); [exact K|exact A|exact D|do 3 (apply in_or_app; right); right; apply in_or_app; right; exact Hc|exact F|nex]. }
      destruct Hr as [|rc t3 Hr].
      + cbn [app] in *. apply w_maybe_no'; [eapply on_next; [exact Ho|discriminate|eapply detail_next_of; [exact DD|intros t G; each G; discriminate]]|]. lred. wsteps.
        revert Q. apply w_ext. intros y p0 a0 Q. wsteps. exact Q.
      + destruct Hr as [i|i l t4 Hr]; [|destruct Hr; cbn in Hl; lia]. norm_toks. wsteps. revert Q. norm_toks. apply w_ext. intros y p0 a0 Q. wsteps. exact Q.
  Qed.

  Definition alike_tables (s s1 : ctable) : Prop := cb_cols s = cb_cols s1 /\ alike (cb_csts s) (cb_csts s1) /\ keys_ok (cb_csts s1).

  Lemma takes_tableDetail s ts s' n : a_table_detail id name s ts s' -> (length ts < n)%nat -> forall s1, alike_tables s s1 ->
    takes (createDetail n s1) ts (alike_tables s') (next after_detail).
  Proof.
    intros [s0 tc c ct t1 ct' d cs fs t2 C N Hct Hd|s0 cn tc pr key t1 C Hk nn ct M|s0 cn tc e t1 C W|s0 cn tc fk t1 C Hf] Hn s1 (E0 & A & K) B h p rest F KK.
    - unfold createDetail. norm_toks. wsteps. apply (w_constraintName 0 tc); [exact C|reflexivity|]. wsteps. cbn [Z.eqb]. unfold parseColumn. wsteps.
      assert (E : mem c (cb_cols s1) = false) by (rewrite <- E0; apply Bool.not_true_is_false; intros E; apply existsb_exists in E; destruct E as (x & E1 & E2); apply Z.eqb_eq in E2; now subst).
      rewrite E. wsteps. wuse (via (reads_columnType id name ct t1 Hct)); [eapply detail_next_of; [eapply a_details_next; eassumption|intros t G; each G; split; (discriminate || exact Logic.I)]|].
      intros x <-. wsteps. unfold add_col. rewrite <- E0.
      apply (takes_details _ _ _ _ _ Hd (cb_cols s0 ++ [c]) (cb_types s1) (cb_defaults s1) n n ltac:(unfold zlen; rewrite app_length; cbn [length]; lia) ltac:(lens) ltac:(lens));
        [exact K|exact A|reflexivity|apply in_or_app; right; now left|exact F|].
      intros fs2 cs2 d2 G1 G2. wsteps. fin. repeat split; assumption.
    - assert (Lk : length (ik_reverse key) = length (ik_columns key) /\ forall c, In c (ik_columns key) -> In (KIdent c) t1).
      { clear -Hk. destruct Hk as [l rs t2 Hk _]. destruct (key_columns_facts _ _ _ Hk) as [F1 F2]. split; [exact F1|]. intros c Hc. right. apply in_or_app. left. now apply F2. }
      destruct Lk as [L1 L2]. unfold createDetail. subst nn ct.
      destruct pr; norm_toks; wsteps; (apply (w_constraintName cn tc); [exact C|reflexivity|]); wsteps; (wuse (via (reads_key id name n true key t1 Hk ltac:(lens))); [exact Logic.I|]); intros x <-; wsteps;
        (apply w_keyName; [intros c Hc; apply in_or_app; left; apply in_rev; rewrite rev_involutive; now apply L2|]); wsteps; (eapply w_addKey; [exact A|exact K|exact L1|exact M|]); fin;
        (split; [exact E0|split; [alk|apply keys_snoc; [exact K|exact L1]]]).
    - unfold createDetail. norm_toks. wsteps. apply (w_constraintName cn tc); [exact C|reflexivity|]. wsteps.
      wuse (T_whole e t1 W n ltac:(lens)); [ae|]. intros x _. wsteps. fin. split; [exact E0|split; [alk|kok]].
    - unfold createDetail. norm_toks. wsteps. apply (w_constraintName cn tc); [exact C|reflexivity|]. wsteps.
      wuse (via (reads_foreignKey id name cn fk t1 n Hf ltac:(lens))); [eapply next_mono; [exact F|]; intros t G; unfold after_detail in G; each G; (split; [discriminate|split; [discriminate|reflexivity]])|]. intros x _. wsteps. fin. repeat split; assumption.
  Qed.
  Lemma takes_tableDetails s ts s' : a_table_details id name s ts s' -> forall n m, (length ts < n)%nat -> (length ts < m)%nat -> forall s1, alike_tables s s1 ->
    takes (aloop m (fun s =>
      let+ s := createDetail n s in
      let+ r := expectTokens [tComma; tRParen] in
      if r =? tRParen then ARet (inr s) else ARet (inl s)) s1) (ts ++ [KRune tRParen]) any (fun _ => True).
  Proof.
    induction 1 as [s ts s' H|s ts s2 ts' s' H H' IH]; intros n [|m] Hn Hm s1 A; try lia; intros B h p rest _ K; norm_toks; wsteps.
    - wuse (takes_tableDetail _ _ _ n H Hn s1 A); [cbn; tauto|]. intros x _. wsteps. cbn [rune_of Z.eqb Pos.eqb]. wsteps. fin.
    - wuse (takes_tableDetail _ _ _ n H ltac:(lens) s1 A); [cbn; tauto|]. intros x Hx. wsteps. cbn [rune_of Z.eqb Pos.eqb]. wsteps. wuse (IH n m ltac:(lens) ltac:(lens) x Hx); [exact Logic.I|]. intros y _. fin.
  Qed.

  Lemma takes_alterAction a ts n : a_alter_action a ts -> (length ts < n)%nat -> takes (alterAction n) ts any (next after_action).
  Proof.
    intros [cn tc fk t1 C Hf|i|i|c tc C|c tc C] Hn B h p rest F K; unfold alterAction; norm_toks; wsteps; cbn [Z.eqb Pos.eqb].
    - wsteps. apply (w_constraintName cn tc); [exact C|reflexivity|]. wsteps.
      wuse (via (reads_foreignKey id name cn fk t1 n Hf ltac:(lens))); [eapply next_mono; [exact F|]; intros t G; unfold after_action in G; each G; (split; [discriminate|split; [discriminate|reflexivity]])|]. intros x _. wsteps. fin.
    - unfold ifExists. wsteps. fin.
    - unfold ifExists. wsteps. fin.
    - destruct C as [<-|[<-|[]]]; norm_toks; wsteps; cbn [ident_of Z.eqb Pos.eqb]; wsteps; fin.
    - destruct C as [<-|[<-|[]]]; norm_toks; wsteps; cbn [ident_of Z.eqb Pos.eqb]; wsteps; fin.
  Qed.
  Lemma takes_alterActions tn l ts : a_alter_actions l ts -> forall n m l0, (length ts < n)%nat -> (length ts < m)%nat ->
    takes (aloop m (fun actions =>
      let+ a := alterAction n in
      let actions := actions ++ [a] in
      let+ comma := maybeToken tComma in
      if comma then ARet (inl actions) else ARet (inr (SAlterTable tn actions))) l0) ts (fun s => copies s = false) (next after_stmt).
  Proof.
    induction 1 as [a ts H|a l ts ts' H H' IH]; intros n [|m] l0 Hn Hm; try lia; intros B h p rest F K; norm_toks; wsteps.
    - wuse (takes_alterAction a ts n H Hn); [eapply next_mono; [exact F|]; intros t G; unfold after_stmt in G; each G; cbn; tauto|]. intros x _.
      wsteps. apply w_maybe_no'; [eapply next_mono; [exact F|]; intros t G; unfold after_stmt in G; each G; discriminate|]. lred. wsteps. fin. reflexivity.
    - wuse (takes_alterAction a ts n H ltac:(lens)); [cbn; tauto|]. intros x _. wsteps. wuse (IH n m (l0 ++ [x]) ltac:(lens) ltac:(lens)); [exact F|]. intros y Hy. fin. exact Hy.
  Qed.

  Lemma takes_orDefault o ts n : a_or_default id name o ts -> (length ts < n)%nat -> takes (exprOrDefault n) ts any after_expr.
  Proof.
    intros [|e t1 W] Hn B h p rest F K; unfold exprOrDefault; norm_toks; wsteps; [fin|].
    destruct (a_whole_first id name e t1 W) as (t & r & E & _ & E1).
    assert (Q : lwp (abind (parseExpr n) (fun e => h (Some e))) p (t1 ++ rest)) by (wuse (T_whole e t1 W n Hn); [exact F|]; intros x _; fin).
    rewrite E in *. cbn [app] in *. wsteps. rewrite E1. wsteps. revert Q. apply w_ext. intros x p0 a0 Q. exact Q.
  Qed.
  Lemma takes_insertRow l ts : a_insert_row id name l ts -> forall n m l0, (length ts < n)%nat -> (length ts < m)%nat ->
    takes (aloop m (fun row =>
      let+ e := exprOrDefault n in
      let row := row ++ [e] in
      let+ r := expectTokens [tComma; tRParen] in
      if r =? tRParen then ARet (inr row) else ARet (inl row)) l0) (ts ++ [KRune tRParen]) any (fun _ => True).
  Proof.
    induction 1 as [o ts H|o l ts ts' H H' IH]; intros n [|m] l0 Hn Hm; try lia; intros B h p rest _ K; norm_toks; wsteps.
    - wuse (takes_orDefault o ts n H Hn); [ae|]. intros x _. wsteps. cbn [rune_of Z.eqb Pos.eqb]. wsteps. fin.
    - wuse (takes_orDefault o ts n H ltac:(lens)); [ae|]. intros x _. wsteps. cbn [rune_of Z.eqb Pos.eqb]. wsteps. wuse (IH n m (l0 ++ [x]) ltac:(lens) ltac:(lens)); [exact Logic.I|]. intros y _. fin.
  Qed.
  Lemma takes_insertRows tn cols l ts : a_insert_rows id name l ts -> forall n m l0, (length ts < n)%nat -> (length ts < m)%nat ->
    takes (aloop m (fun rows =>
      expectTokens [tLParen] ;+
      let+ row := aloop n (fun row =>
        let+ e := exprOrDefault n in
        let row := row ++ [e] in
        let+ r := expectTokens [tComma; tRParen] in
        if r =? tRParen then ARet (inr row) else ARet (inl row)) [] in
      let rows := rows ++ [row] in
      let+ comma := maybeToken tComma in
      if comma then ARet (inl rows) else ARet (inr (SInsertValues tn cols rows))) l0) ts (fun s => copies s = false) (next after_stmt).
  Proof.
    induction 1 as [l ts H|l ls ts ts' H H' IH]; intros n [|m] l0 Hn Hm; try lia; intros B h p rest F K; norm_toks; wsteps.
    - wuse (takes_insertRow l ts H n n [] ltac:(lens) ltac:(lens)); [exact Logic.I|]. intros x _. wsteps. apply w_maybe_no'; [eapply next_mono; [exact F|]; intros t G; unfold after_stmt in G; each G; discriminate|]. lred. wsteps. fin. reflexivity.
    - wuse (takes_insertRow l ts H n n [] ltac:(lens) ltac:(lens)); [exact Logic.I|]. intros x _. wsteps. wuse (IH n m (l0 ++ [x]) ltac:(lens) ltac:(lens)); [exact F|]. intros y Hy. fin. exact Hy.
  Qed.
  Lemma takes_updates l ts : a_updates id name l ts -> forall n m l0, (length ts < n)%nat -> (length ts < m)%nat ->
    takes (aloop m (fun l =>
      let+ id := expectIdentifier in
      expectTokens [tEqual] ;+
      let+ e := exprOrDefault n in
      let l := l ++ [(id, e)] in
      let+ comma := maybeToken tComma in
      if comma then ARet (inl l) else ARet (inr l)) l0) ts any (fun r => after_expr r /\ next (no_rune tComma) r).
  Proof.
    induction 1 as [i o ts H|i o l ts ts' H H' IH]; intros n [|m] l0 Hn Hm; try lia; intros B h p rest F K; norm_toks; wsteps.
    - destruct F as [F1 F2]. wuse (takes_orDefault o ts n H ltac:(lens)); [exact F1|]. intros x _. wsteps. apply w_maybe_no'; [exact F2|]. lred. wsteps. fin.
    - wuse (takes_orDefault o ts n H ltac:(lens)); [ae|]. intros x _. wsteps. wuse (IH n m (l0 ++ [(i, x)]) ltac:(lens) ltac:(lens)); [exact F|]. intros y _. fin.
  Qed.

  Lemma w_ifExists {B} b tb p a (h : bool -> act B) : if_exists b tb -> next (no_word [kIF]) a ->
    lwp (h b) (rev tb ++ p) a -> lwp (abind ifExists h) p (tb ++ a).
  Proof. intros H F. apply w_same. now apply l_ifExists. Qed.
  Lemma w_ifNotExists {B} b tb p a (h : bool -> act B) : if_not_exists b tb -> next (no_word [kIF]) a ->
    lwp (h b) (rev tb ++ p) a -> lwp (abind ifNotExists h) p (tb ++ a).
  Proof. intros H F. apply w_same. now apply l_ifNotExists. Qed.

  Context {X : FloatLib} {P : PrintLib}.

  Lemma takes_options l ts : a_db_options name l ts -> forall m l0, (length ts < m)%nat ->
    takes (aloop m (fun options =>
      let+ t := scan_ in
      match t with
      | KIdent opt =>
          maybeToken tEqual ;+
          let+ t := scan_ in
          let+ val :=
            match t with
            | KIdent id => name_ id
            | KString s => ARet s
            | KBytes l => ABytes l ARet
            | KInteger i => ARet (format_int i)
            | KFloat p => ARet (x_format_float p)
            | _ => AError
            end in
          ARet (inl (set_option options opt val))
      | _ =>
          unscan_ ;+
          match options with
          | [] => AError
          | _ => ARet (inr options)
          end
      end) l0) ts any (next no_ident).
  Proof.
    assert (V : forall B v t p a (h : bytes -> act B), a_option_value name v t -> (forall b, lwp (h b) (t :: p) a) -> lwp (abind match t with
            | KIdent id => name_ id
            | KString s => ARet s
            | KBytes l => ABytes l ARet
            | KInteger i => ARet (format_int i)
            | KFloat p => ARet (x_format_float p)
            | _ => AError
            end h) (t :: p) a).
    { intros B v t p a h [v0 t0 [i|s|i|q]|b l0] K; [apply w_name; [now left|apply K]|apply K|apply K|apply K|apply w_bytes; apply K]. }
    assert (V' : forall v t, a_option_value name v t -> rune_of t <> tEqual) by (intros v t [v0 t0 [ ]|b l0]; discriminate).
    assert (S : forall l k v, set_option l k v <> []) by (intros [|[k' v'] l0] k v; cbn [set_option]; [discriminate|]; destruct (k' =? k); discriminate).
    induction 1 as [i v t eq Hv Heq|i v t eq l ts Hv Heq H IH]; intros [|m] l0 Hm; try lia; intros B h p rest F K.
    - destruct m as [|m]; [lens|].
      destruct Heq as [<-|[<-|[]]]; norm_toks; wsteps; try (apply w_maybe_no; [exact (V' v t Hv)|]; lred); wsteps; (eapply V; [exact Hv|]); intros b;
        (destruct rest as [|t' rest]; [contradiction|]); cbn [next] in F; wsteps; pose proof (S l0 i b) as N9; (destruct (set_option l0 i b) as [|o9 l9]; [now elim N9|]); (destruct t'; try contradiction; wsteps; fin).
    - destruct Heq as [<-|[<-|[]]]; norm_toks; wsteps; try (apply w_maybe_no; [exact (V' v t Hv)|]; lred); wsteps; (eapply V; [exact Hv|]); intros b; wsteps;
        (wuse (IH m (set_option l0 i b) ltac:(lens)); [exact F|]); intros y _; fin.
  Qed.

  Ltac stmt := apply stmt_of; [assumption|try discriminate; try reflexivity; try exact Logic.I..].
  Lemma a_opt_whole_cases k w tw : a_opt_whole id name k w tw -> tw = [] \/ exists ts, tw = KReserved k :: ts.
  Proof. intros [ ]; eauto. Qed.

  (** What a variable is set to is a single token. *)
  Lemma words_literal v e : words e = words (Literal v) -> e = Literal v.
  Proof.
    destruct e as [v'|l|f a|op x|op l r|qt op x s]; intros E.
    - now injection E as ->.
    - discriminate E.
    - discriminate E.
    - destruct op; discriminate E.
    - exfalso. cbn [words app] in E. destruct (words l) as [|w ws]; [discriminate E|]. cbn [app] in E. injection E as _ E. destruct ws; discriminate E.
    - discriminate E.
  Qed.
  Lemma takes_literal v ts n : v <> VNull -> a_whole id name (Literal v) ts -> (length ts < n)%nat -> takes (let+ e := parseExpr n in literalText e) ts any (next after_stmt).
  Proof.
    intros N W Hn B h p rest F K. inversion W as [c e0 e ts0 A G E T]; subst. symmetry in E. apply words_literal in E. subst e0.
    destruct n as [|n]; [lia|].
    assert (O : a_operand id name true (Literal v) ts) by (inversion A; subst; match goal with H : a_operand _ _ ?o _ _ |- _ => inversion H; subst; exact H end).
    clear A. pose proof (stmt_expr _ F) as F'.
    assert (Q : forall t w, literalText (Literal w) = ACrash \/ True -> ts = [t] -> (forall B (h : expr -> act B) p, (forall w', (match w, w' with VBytes _, VBytes _ => True | _, _ => w = w' end) -> lwp (h (Literal w')) (t :: p) rest) ->
        lwp (abind (parseOperand_ n (parseSubExpr n) (parseFromItem n)) h) p (t :: rest)) -> w <> VNull -> lwp (abind (let+ e := parseExpr (Datatypes.S n) in literalText e) h) p (ts ++ rest)).
    { intros t w _ E Op Nw. subst ts. unfold parseExpr, parseExpr_. change (parseSubExpr (Datatypes.S n) tt) with (subExprBody n (parseSubExpr n) (parseFromItem n)). unfold subExprBody. cbn [app]. wsteps.
      apply Op. intros w' Hw. wsteps. apply w_postfix_none; [exact F'|]. change (adjust (Literal w')) with (@ARet expr (Literal w')). wsteps.
      destruct w, w'; try discriminate Hw; try (now elim Nw); cbn [literalText]; wsteps; try (apply K; exact Logic.I); intros b; cbn [abind LemmasExact.lwp]; try (apply K; exact Logic.I). }
    inversion O; subst; (eapply Q; [now right|reflexivity| |exact N]); intros B' h' p' K'; unfold parseOperand_; wsteps; try (apply K'; reflexivity); intros b'; apply K'; exact Logic.I.
  Qed.
  Lemma takes_setting v ts n : a_setting id name v ts -> (length ts < n)%nat -> takes (let+ e := parseExpr n in literalText e) ts any (next after_stmt).
  Proof. intros [ ] Hn; (eapply takes_literal; [|eassumption|exact Hn]; discriminate). Qed.

  Lemma w_setting {B} v ts n var (h : stmt -> act B) p rest : a_setting id name v ts -> (length ts < n)%nat -> next after_stmt rest ->
    (forall s, copies s = false -> lwp (h s) (rev ts ++ p) rest) -> lwp (abind (parseExpr n) (fun e => abind (abind (literalText e) (fun v => ARet (SSet var v))) h)) p (ts ++ rest).
  Proof.
    intros H Hn F K. assert (Q : lwp (abind (let+ e := parseExpr n in literalText e) (fun v => h (SSet var v))) p (ts ++ rest)) by (apply (takes_setting v ts n H Hn); [exact F|intros x _; now apply K]).
    apply w_assoc_back in Q. revert Q. apply w_ext. intros e p0 a0 Q. apply w_assoc. exact Q.
  Qed.

  Lemma w_tables {A B} l ts n (g : list tablename -> act A) (h : A -> act B) p rest : table_names l ts -> (length ts < n)%nat -> next (fun t => rune_of t <> tComma /\ rune_of t <> tDot) rest ->
    (forall l, lwp (abind (g l) h) (rev ts ++ p) rest) -> lwp (abind parseTableName (fun tn => abind (abind (aloop n (fun tables =>
      let+ comma := maybeToken tComma in
      if comma then
        let+ tn := parseTableName in
        ARet (inl (tables ++ [tn]))
      else ARet (inr tables)) [tn]) g) h)) p (ts ++ rest).
  Proof.
    intros H Hn F K. pose proof (via (reads_tables id name l ts n H Hn) B (fun l => abind (g l) h) p rest F (fun x _ => K x)) as Q.
    apply w_assoc_back in Q. revert Q. apply w_ext. intros e p0 a0 Q. apply w_assoc. exact Q.
  Qed.

  Lemma takes_accepts s ts n : accepts id name s ts -> (length ts < n)%nat -> takes (parseStmt n) ts (fun o => exists s, o = Some s /\ copies s = false) (next after_stmt).
  Proof.
    intros H Hn B h p rest F K0. unfold parseStmt, stmtKeywords.
    destruct H as [ | | | |s ts H|l ts H|s ts H|s ts H|s ts H|var v ts k K H|var v ts k K H|v ts H|tn l ls t1 t2 t3 H1 H2 N H3|tn l w t1 t2 tw H1 H2 H3|tn w t1 tw H1 H2|b tn s tb t1 t2 H1 H2 H3|u b i tn key tb t1 tu t2 H1 H2 H3 H4
      |i|i given l ts H N|sn ts H|tn l t1 t2 H1 H2|b l tb t1 tr H1 H2 H3|b l tb t1 H1 H2|b i tn tb t1 H1 H2|b i tb H|b sn tb t1 H1 H2]; norm_toks; wsteps; unfold parseStmtOf; cbn [Z.eqb Pos.eqb]; cbv zeta.
    - wsteps. fin.
    - wsteps. fin.
    - wsteps. fin.
    - wsteps. fin.
    - wuse (T_select s ts H n ltac:(lens)); [now apply stmt_query|]. intros x Hx. wsteps. fin.
    - wuse (T_rows l ts H n ltac:(lens)); [stmt|]. intros x Hx. wsteps. fin.
    - wuse (w_show id name over_ s ts H); [now apply stmt_query|]. intros x Hx. wsteps. fin.
    - unfold parseExplain. wsteps. wuse (T_select s ts H n ltac:(lens)); [now apply stmt_query|]. intros x Hx. wsteps. fin.
    - unfold parseExplain. wsteps. wuse (T_select s ts H n ltac:(lens)); [now apply stmt_query|]. intros x Hx. wsteps. fin.
    - unfold parseSet. wsteps. destruct K as [[-> ->]|[[-> ->]| ->]]; wsteps; (apply (w_setting v ts n); [exact H|lens|exact F|]); intros s Hs; wsteps; fin.
    - unfold parseSet. wsteps. destruct K as [[-> ->]|[[-> ->]| ->]]; wsteps; (apply (w_setting v ts n); [exact H|lens|exact F|]); intros s Hs; wsteps; fin.
    - unfold parseUse. wsteps. (apply (w_setting v ts n); [exact H|lens|exact F|]); intros s Hs; wsteps; fin.
    - unfold parseInsert. wsteps. wuse (via (reads_tableName id name tn t1 H1)); [destruct H2; discriminate|]. intros x <-. wsteps.
      assert (Q : lwp (abind (aloop n (fun rows =>
          expectTokens [tLParen] ;+
          let+ row := aloop n (fun row =>
            let+ e := exprOrDefault n in
            let row := row ++ [e] in
            let+ r := expectTokens [tComma; tRParen] in
            if r =? tRParen then ARet (inr row) else ARet (inl row)) [] in
          let rows := rows ++ [row] in
          let+ comma := maybeToken tComma in
          if comma then ARet (inl rows) else ARet (inr (SInsertValues tn l rows))) []) (fun s => h (Some s))) (KReserved kVALUES :: rev t2 ++ rev t1 ++ KReserved kINTO :: KReserved kINSERT :: p) (t3 ++ rest)).
      { wuse (takes_insertRows tn l ls t3 H3 n n [] ltac:(lens) ltac:(lens)); [exact F|]. intros x Hx. fin. }
      destruct H2 as [|l t2 H2]; norm_toks; wsteps; [exact Q|]. wuse (via (reads_distinct id name n l t2 H2 N ltac:(lens))); [exact Logic.I|]. intros x <-. wsteps. eapply w_past; [exact Q|wpast].
    - unfold parseUpdate. wsteps. wuse (via (reads_tableName id name tn t1 H1)); [discriminate|]. intros x _. wsteps.
      wuse (takes_updates l t2 H2 n n [] ltac:(lens) ltac:(lens)); [destruct (a_opt_whole_cases _ _ _ H3) as [->|(t9 & ->)]; [split; [now apply stmt_expr|stmt]|split; [ae|discriminate]]|]. intros y _.
      wuse (T_opt_whole kWHERE w tw H3 n ltac:(lens)); [split; [now apply stmt_expr|stmt]|]. intros z _. wsteps. fin.
    - unfold parseDelete. wsteps. wuse (via (reads_tableName id name tn t1 H1)); [destruct (a_opt_whole_cases _ _ _ H2) as [->|(t9 & ->)]; [stmt|discriminate]|]. intros x _. wuse (T_opt_whole kWHERE w tw H2 n ltac:(lens)); [split; [now apply stmt_expr|stmt]|]. intros z _. wsteps. fin.
    - wsteps. cbn [Z.eqb Pos.eqb]. unfold parseCreateTable. wsteps. apply (w_ifNotExists b tb); [exact H1|eapply table_next; [exact H2|reflexivity]|]. lred. wuse (via (reads_tableName id name tn t1 H2)); [discriminate|]. intros x _. wsteps.
      unfold parseCreateDetails. wuse (takes_tableDetails noTable t2 s H3 n n ltac:(lens) ltac:(lens) noTable ltac:(repeat constructor)); [exact Logic.I|]. intros y _. wsteps. fin.
    - assert (Q : forall B (h : stmt -> act B) p, (forall s, copies s = false -> lwp (h s) (rev (tb ++ KIdent i :: KReserved kON :: t1 ++ tu ++ t2) ++ p) rest) -> lwp (abind (parseCreateIndex n u) h) p (tb ++ KIdent i :: KReserved kON :: t1 ++ tu ++ t2 ++ rest)).
      { clear B h p K0. intros B h p K0. unfold parseCreateIndex. wsteps. apply (w_ifNotExists b tb); [exact H1|reflexivity|]. wsteps.
        destruct (key_next _ _ _ rest H4) as (r & E).
        wuse (via (reads_tableName id name tn t1 H2)); [destruct H3 as [<-|[<-|[]]]; cbn [app]; [rewrite E|]; discriminate|]. intros x _. wsteps.
        destruct H3 as [<-|[<-|[]]]; cbn [app]; [apply w_optional_no'; [rewrite E; reflexivity|]; lred|]; wsteps; cbn [Z.eqb Pos.eqb]; (wuse (via (reads_key id name n u key t2 H4 ltac:(destruct u; lens))); [exact Logic.I|]); intros y _; wsteps; (eapply w_past; [apply K0; reflexivity|wpast]). }
      destruct u; norm_toks; wsteps; cbn [ident_of Z.eqb Pos.eqb]; wsteps; apply Q; intros s Hs; fin.
    - wsteps. cbn [ident_of Z.eqb Pos.eqb]. unfold parseCreateDatabase. wsteps. apply w_optional_no'; [stmt|]. lred. wsteps. fin.
    - wsteps. cbn [ident_of Z.eqb Pos.eqb]. unfold parseCreateDatabase. wsteps. wuse (takes_options given ts H n [] ltac:(lens)); [stmt|]. intros x _. wsteps. fin.
    - wsteps. cbn [ident_of Z.eqb Pos.eqb]. unfold parseCreateSchema. wsteps. wuse (via (reads_schemaName id name sn ts H)); [stmt|]. intros x _. wsteps. fin.
    - wsteps. unfold parseAlterTable. wsteps. wuse (via (reads_tableName id name tn t1 H1)); [destruct H2 as [a t2 [ ]|a l t2 t3 [ ] ?]; discriminate|]. intros x _. wuse (takes_alterActions x l t2 H2 n n [] ltac:(lens) ltac:(lens)); [exact F|]. intros y Hy. fin.
    - wsteps. cbn [ident_of Z.eqb Pos.eqb]. unfold parseDropTable. wsteps. apply (w_ifExists b tb); [exact H1|destruct H2 as [? ? H2|? ? ? ? H2 ?]; rewrite <- ?app_assoc; (eapply table_next; [exact H2|reflexivity])|]. lred.
      wsteps. apply (w_tables l t1 n); [exact H2|lens|destruct H3 as [<-|[<-|[]]]; [cbn [app]; apply stmt_of; [exact F|split; discriminate..]|split; discriminate]|]. intros x. wsteps.
      destruct H3 as [<-|[<-|[]]]; cbn [app]; [apply w_optional_no'; [stmt|]; lred; wsteps; apply w_optional_no'; [stmt|]; lred|]; wsteps; fin.
    - wsteps. cbn [ident_of Z.eqb Pos.eqb]. unfold parseDropTable. wsteps. apply (w_ifExists b tb); [exact H1|destruct H2 as [? ? H2|? ? ? ? H2 ?]; rewrite <- ?app_assoc; (eapply table_next; [exact H2|reflexivity])|]. lred.
      wsteps. apply (w_tables l t1 n); [exact H2|lens|split; discriminate|]. intros x. wsteps. fin.
    - wsteps. cbn [ident_of Z.eqb Pos.eqb]. unfold parseDropIndex. wsteps. apply (w_ifExists b tb); [exact H1|reflexivity|]. wsteps. wuse (via (reads_tableName id name tn t1 H2)); [stmt|]. intros x _. wsteps. fin.
    - wsteps. cbn [ident_of Z.eqb Pos.eqb]. unfold parseDropDatabase. wsteps. apply (w_ifExists b tb); [exact H|reflexivity|]. wsteps. fin.
    - wsteps. cbn [ident_of Z.eqb Pos.eqb]. unfold parseDropSchema. wsteps. apply (w_ifExists b tb); [exact H1|eapply schema_next; [exact H2|reflexivity]|]. wsteps. wuse (via (reads_schemaName id name sn t1 H2)); [stmt|]. intros x _. wsteps. fin.
  Qed.
End ExactStmt.

(** A whole statement, with what ends it, and nothing else. *)
Definition wholeStmt {X : FloatLib} {P : PrintLib} (n : nat) : act (option stmt) :=
  let+ o := parseWhole n in match o with Some s => if copies s then AError else ARet o | None => AError end.
Lemma lwp_statement {X : FloatLib} {P : PrintLib} id name s ts n t p : accepts id name s ts -> (length ts < n)%nat -> t = KEnd \/ t = KEOF ->
  lwp id name 0 (wholeStmt n) p (ts ++ [t]).
Proof.
  intros H Hn Ht. unfold wholeStmt, parseWhole. apply w_assoc. apply (takes_accepts id name 0 s ts n H Hn); [cbn; destruct Ht as [->| ->]; tauto|]. intros x (s' & -> & C).
  apply w_assoc. apply w_expectEnd; [exact Ht|]. apply w_ret. rewrite C. reflexivity.
Qed.
Lemma lwp_expr id name e ts n t p : a_whole id name e ts -> (length ts < n)%nat -> t = KEnd \/ t = KEOF ->
  lwp id name 1 (abind (parseExpr n) ARet) p (ts ++ [t]).
Proof.
  intros H Hn Ht. apply (T_whole id name 1 e ts H n Hn); [destruct Ht as [->| ->]; ae|]. intros x _. reflexivity.
Qed.
