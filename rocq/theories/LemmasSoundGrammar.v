(** Everything the grammar says is accepted. *)

From Verif Require Import ModelParser SpecGrammar SpecAccepts LemmasBase LemmasAdjust LemmasRegroup LemmasGrammarExpr.

Section Inclusion.
  Variable id : bytes -> Z.
  Variable name : Z -> bytes.

  Lemma says_grammar :
    (forall e ts, operand id name e ts -> a_operand id name true e ts) /\
    (forall e ts, sub id name e ts -> exists c, a_sub id name c e ts) /\
    (forall l ts, args id name l ts -> a_args id name l ts) /\
    (forall e ts, whole id name e ts -> a_whole id name e ts) /\
    (forall l ts, wholes id name l ts -> a_wholes id name l ts) /\
    (forall l ts, rows id name l ts -> a_rows id name l ts) /\
    (forall r ts, result id name r ts -> a_result id name r ts) /\
    (forall l ts, results id name l ts -> a_results id name l ts) /\
    (forall o ts, opt_results id name o ts -> a_opt_results id name o ts) /\
    (forall k o ts, opt_whole id name k o ts -> a_opt_whole id name k o ts) /\
    (forall l ts, opt_group id name l ts -> a_opt_group id name l ts) /\
    (forall o ts, opt_from id name o ts -> a_opt_from id name o ts) /\
    (forall s ts, select id name s ts -> a_select id name s ts) /\
    (forall s ts, query id name s ts -> a_query id name s ts) /\
    (forall f ts, from_operand id name f ts -> a_from_operand id name f ts) /\
    (forall c f ts, from_item id name c f ts -> a_from_item id name c f ts) /\
    (forall f ts, from_list id name f ts -> a_from_list id name f ts) /\
    (forall f f' ts, from_more id name f f' ts -> a_from_more id name f f' ts).
  Proof.
    apply grammar_min; intros; repeat match goal with H : exists c, a_sub _ _ c _ _ |- _ => destruct H as [? H] end;
      try (econstructor; eassumption); try (eexists; econstructor; eassumption).
    - eexists. eapply as_operand. econstructor. eassumption.
    - eexists. eapply as_operand. apply ao_minus. eassumption.
    - econstructor; try eassumption; [now apply tight_grouped|auto].
    - constructor. now constructor.
  Qed.
  Lemma says_whole e ts : whole id name e ts -> a_whole id name e ts. Proof. apply says_grammar. Qed.
  Lemma says_opt_whole k o ts : opt_whole id name k o ts -> a_opt_whole id name k o ts. Proof. apply says_grammar. Qed.
  Lemma says_select s ts : select id name s ts -> a_select id name s ts. Proof. apply says_grammar. Qed.
  Lemma says_rows l ts : rows id name l ts -> a_rows id name l ts. Proof. apply says_grammar. Qed.
  Lemma says_constraint i ts : opt_constraint i ts -> a_constraint i ts.
  Proof. destruct 1; constructor. Qed.
  Local Hint Resolve says_whole says_opt_whole says_select says_rows says_constraint : says.
  Local Hint Constructors a_constraint : says.

  Lemma says_column_details c col st ts st' : column_details id name c col st ts st' -> a_column_details id name c col st ts st'.
  Proof.
    induction 1.
    - constructor. constructor.
    - apply (acd_default id name c col []) with (e := e); auto with says.
    - apply acd_named_default with (e := e); auto with says.
    - apply (acd_not_null id name c col []); auto with says.
    - now apply acd_named_not_null.
    - apply acd_primary with (cn := cn); auto with says.
    - apply acd_unique with (cn := cn); auto with says.
    - apply acd_check with (cn := cn) (e := e); auto with says.
    - eapply acd_references; eauto with says.
  Qed.
  Lemma says_table_details s ts s' : table_details id name s ts s' -> a_table_details id name s ts s'.
  Proof.
    assert (K : forall s ts s', table_detail id name s ts s' -> a_table_detail id name s ts s').
    { clear. intros s ts s' H. destruct H.
      - eapply (atd_column id name s []); try eassumption; auto with says. now apply says_column_details.
      - apply atd_key with (cn := cn); auto with says.
      - apply atd_check with (cn := cn); auto with says.
      - apply atd_foreign with (cn := cn); auto with says. }
    induction 1; [apply atds_one|eapply atds_more]; eauto.
  Qed.
  Lemma says_alter_actions l ts : alter_actions l ts -> a_alter_actions l ts.
  Proof.
    assert (K : forall a ts, alter_action a ts -> a_alter_action a ts) by (intros a ts' H; destruct H; econstructor; eauto with says).
    induction 1; constructor; auto.
  Qed.
  Lemma says_or_default o ts : or_default id name o ts -> a_or_default id name o ts.
  Proof. destruct 1; constructor. auto with says. Qed.
  Lemma says_insert_rows l ts : insert_rows id name l ts -> a_insert_rows id name l ts.
  Proof.
    assert (K : forall l ts, insert_row id name l ts -> a_insert_row id name l ts) by (induction 1; constructor; auto using says_or_default).
    induction 1; constructor; auto.
  Qed.
  Lemma says_updates l ts : updates id name l ts -> a_updates id name l ts.
  Proof. induction 1; constructor; auto using says_or_default. Qed.

  Lemma last_in l k v : NoDup (map fst l) -> (In (k, v) l <-> last_value l k = Some v).
  Proof.
    induction l as [|[k' v'] l IH]; cbn [map fst last_value In]; intros N; [split; [easy|discriminate]|]. inversion N as [|? ? N1 N2]; subst. specialize (IH N2).
    destruct (last_value l k) as [v0|] eqn:E.
    - assert (KI : In k (map fst l)).
      { clear - E. induction l as [|[a b] l IH]; cbn in *; [discriminate|]. destruct (last_value l k); [right; now apply IH|]. destruct (Z.eqb_spec a k); [now left|discriminate]. }
      split.
      + intros [H|H]; [injection H as -> ->; contradiction|]. now apply IH.
      + intros H. right. now apply IH.
    - destruct (Z.eqb_spec k' k) as [->|NE].
      + split; [intros [H|H]; [congruence|apply IH in H; discriminate]|]. intros [= ->]. now left.
      + split; [intros [H|H]; [congruence|apply IH in H; discriminate]|discriminate].
  Qed.

  Context {X : FloatLib} {P : PrintLib}.
  Lemma says_db_options l ts : db_options name l ts -> a_db_options name l ts.
  Proof. induction 1; constructor; auto; now apply aov_text. Qed.
  Lemma says_setting v ts : setting id name v ts -> a_setting id name v ts.
  Proof. destruct 1; econstructor; auto with says; fail. Qed.

  Lemma says_accepts s ts : says id name s ts -> accepts id name s ts.
  Proof.
    destruct 1; try (constructor; auto using says_setting, says_insert_rows, says_updates, says_table_details, says_alter_actions with says; fail).
    - apply acc_show. now apply ash_show.
    - apply acc_create_database_with with (given := l); [now apply says_db_options|]. split; [assumption|]. intros k v. now apply last_in.
  Qed.
End Inclusion.
