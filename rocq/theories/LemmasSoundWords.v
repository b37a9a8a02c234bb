(** The tokens of statements that are accepted are words, numbers, strings, bytes
    and punctuation. *)

From Verif Require Import ModelParser SpecAccepts LemmasBase LemmasSoundDeref.

Section Words.
  Variable id : bytes -> Z.
  Variable name : Z -> bytes.

  Definition plain (t : tok) : Prop := match t with KEOF | KEnd | KError _ | KParameter _ => False | _ => Logic.True end.
  Notation plains := (Forall plain).

  Lemma plain_app l l' : plains l -> plains l' -> plains (l ++ l').
  Proof. intros H H'. apply Forall_app. now split. Qed.
  Lemma plain_infix t op b : In (t, op, b) infix_tokens -> plain t.
  Proof. intros H. cbn in H. repeat destruct H as [H|H]; try contradiction; injection H as <- <- <-; exact Logic.I. Qed.

  Local Hint Resolve plain_app plain_infix : plain.
  Ltac pl := repeat first [assumption | exact Logic.I | apply Forall_nil | apply Forall_cons | apply plain_app | (eapply plain_infix; eassumption)]; eauto with plain.
  Ltac by_induction := let H := fresh in intros H; induction H; pl.

  Lemma pl_schema_name x ts : schema_name x ts -> plains ts. Proof. by_induction. Qed.
  Lemma pl_table_name x ts : table_name x ts -> plains ts. Proof. by_induction. Qed.
  Lemma pl_some_alias x ts : some_alias x ts -> plains ts. Proof. by_induction. Qed.
  Hint Resolve pl_schema_name pl_table_name pl_some_alias : plain.
  Lemma pl_opt_alias x ts : opt_alias x ts -> plains ts. Proof. by_induction. Qed.
  Lemma pl_names x ts : names x ts -> plains ts. Proof. by_induction. Qed.
  Lemma pl_dots x ts : dots x ts -> plains ts. Proof. by_induction. Qed.
  Hint Resolve pl_opt_alias pl_names pl_dots : plain.
  Lemma pl_opt_names x ts : opt_names x ts -> plains ts. Proof. by_induction. Qed.
  Lemma pl_direction x ts : direction x ts -> plains ts. Proof. by_induction. Qed.
  Hint Resolve pl_opt_names pl_direction : plain.
  Lemma pl_key_columns x y ts : key_columns x y ts -> plains ts. Proof. by_induction. Qed.
  Hint Resolve pl_key_columns : plain.
  Lemma pl_index_key u x ts : index_key u x ts -> plains ts. Proof. by_induction. Qed.
  Lemma pl_order_columns x ts : order_columns x ts -> plains ts. Proof. by_induction. Qed.
  Hint Resolve pl_index_key pl_order_columns : plain.
  Lemma pl_opt_order x ts : opt_order x ts -> plains ts. Proof. by_induction. Qed.
  Lemma pl_join_words x ts : join_words x ts -> plains ts. Proof. by_induction. Qed.
  Lemma pl_show x ts : show id name x ts -> plains ts. Proof. by_induction. Qed.
  Hint Resolve pl_opt_order pl_join_words pl_show : plain.
  Lemma pl_a_show x ts : a_show id name x ts -> plains ts. Proof. by_induction. Qed.
  Hint Resolve pl_a_show : plain.

  Lemma pl_grammar :
    (forall o e ts, a_operand id name o e ts -> plains ts) /\
    (forall c e ts, a_sub id name c e ts -> plains ts) /\
    (forall l ts, a_args id name l ts -> plains ts) /\
    (forall e ts, a_whole id name e ts -> plains ts) /\
    (forall l ts, a_wholes id name l ts -> plains ts) /\
    (forall l ts, a_rows id name l ts -> plains ts) /\
    (forall r ts, a_result id name r ts -> plains ts) /\
    (forall l ts, a_results id name l ts -> plains ts) /\
    (forall o ts, a_opt_results id name o ts -> plains ts) /\
    (forall k o ts, a_opt_whole id name k o ts -> plains ts) /\
    (forall l ts, a_opt_group id name l ts -> plains ts) /\
    (forall o ts, a_opt_from id name o ts -> plains ts) /\
    (forall s ts, a_select id name s ts -> plains ts) /\
    (forall s ts, a_query id name s ts -> plains ts) /\
    (forall f ts, a_from_operand id name f ts -> plains ts) /\
    (forall (c : bool) f ts, a_from_item id name c f ts -> plains ts) /\
    (forall f ts, a_from_list id name f ts -> plains ts) /\
    (forall f f' ts, a_from_more id name f f' ts -> plains ts).
  Proof. apply accepts_min; intros; pl. Qed.
  Lemma pl_whole e ts : a_whole id name e ts -> plains ts. Proof. apply pl_grammar. Qed.
  Lemma pl_wholes l ts : a_wholes id name l ts -> plains ts. Proof. apply pl_grammar. Qed.
  Lemma pl_rows l ts : a_rows id name l ts -> plains ts. Proof. apply pl_grammar. Qed.
  Lemma pl_opt_whole k o ts : a_opt_whole id name k o ts -> plains ts. Proof. apply pl_grammar. Qed.
  Lemma pl_select s ts : a_select id name s ts -> plains ts. Proof. apply pl_grammar. Qed.
  Lemma pl_query s ts : a_query id name s ts -> plains ts. Proof. apply pl_grammar. Qed.
  Lemma pl_sub c s ts : a_sub id name c s ts -> plains ts. Proof. apply pl_grammar. Qed.
  Hint Resolve pl_whole pl_wholes pl_rows pl_opt_whole pl_select pl_query pl_sub : plain.

  Lemma pl_ref_action x ts : ref_action x ts -> plains ts. Proof. by_induction. Qed.
  Hint Resolve pl_ref_action : plain.
  Lemma pl_on_actions x y ts : on_actions x y ts -> plains ts. Proof. by_induction. Qed.
  Hint Resolve pl_on_actions : plain.
  Lemma pl_foreign_key c x ts : foreign_key c x ts -> plains ts. Proof. by_induction. Qed.
  Lemma pl_opt_constraint x ts : opt_constraint x ts -> plains ts. Proof. by_induction. Qed.
  Lemma pl_column_type x ts : column_type x ts -> plains ts. Proof. by_induction. Qed.
  Hint Resolve pl_foreign_key pl_opt_constraint pl_column_type : plain.
  Lemma pl_constraint x ts : a_constraint x ts -> plains ts. Proof. by_induction. Qed.
  Lemma pl_if_exists x ts : if_exists x ts -> plains ts. Proof. by_induction. Qed.
  Lemma pl_if_not_exists x ts : if_not_exists x ts -> plains ts. Proof. by_induction. Qed.
  Lemma pl_or_default x ts : a_or_default id name x ts -> plains ts. Proof. by_induction. Qed.
  Lemma pl_table_names x ts : table_names x ts -> plains ts. Proof. by_induction. Qed.
  Hint Resolve pl_constraint pl_if_exists pl_if_not_exists pl_or_default pl_table_names : plain.
  Lemma pl_insert_row x ts : a_insert_row id name x ts -> plains ts. Proof. by_induction. Qed.
  Hint Resolve pl_insert_row : plain.
  Lemma pl_insert_rows x ts : a_insert_rows id name x ts -> plains ts. Proof. by_induction. Qed.
  Lemma pl_updates x ts : a_updates id name x ts -> plains ts. Proof. by_induction. Qed.
  Hint Resolve pl_insert_rows pl_updates : plain.
  Ltac lists_of := repeat match goal with H : In _ [_; _] |- _ => cbn [In] in H; destruct H as [<-|[<-|[]]] end.
  Lemma pl_column_details c col st ts st' : a_column_details id name c col st ts st' -> plains ts. Proof. by_induction. Qed.
  Hint Resolve pl_column_details : plain.
  Lemma pl_table_detail s ts s' : a_table_detail id name s ts s' -> plains ts.
  Proof. intros H. destruct H; try destruct pr; pl. Qed.
  Hint Resolve pl_table_detail : plain.
  Lemma pl_table_details s ts s' : a_table_details id name s ts s' -> plains ts. Proof. by_induction. Qed.
  Lemma pl_alter_action x ts : a_alter_action x ts -> plains ts.
  Proof. intros H. destruct H; lists_of; pl. Qed.
  Hint Resolve pl_table_details pl_alter_action : plain.
  Lemma pl_alter_actions x ts : a_alter_actions x ts -> plains ts. Proof. by_induction. Qed.
  Hint Resolve pl_alter_actions : plain.

  Context {X : FloatLib} {P : PrintLib}.
  Lemma pl_option_value v t : a_option_value name v t -> plain t. Proof. intros H. destruct H as [v t H|b l]; [destruct H|]; exact Logic.I. Qed.
  Hint Resolve pl_option_value : plain.
  Lemma pl_db_options x ts : a_db_options name x ts -> plains ts.
  Proof. intros H. induction H; lists_of; cbn [app]; pl. Qed.
  Lemma pl_setting v ts : a_setting id name v ts -> plains ts. Proof. by_induction. Qed.
  Hint Resolve pl_db_options pl_setting : plain.

  Lemma accepts_plain s ts : accepts id name s ts -> plains ts.
  Proof.
    intros H. destruct H; lists_of; cbn [app]; try destruct u; cbn [app];
      try match goal with H : _ \/ _ \/ _ |- _ => destruct H as [[-> ->]|[[-> ->]| ->]] end; pl.
  Qed.
End Words.
