(** What is written in a literal of bytes does not matter for what is accepted. *)

From Verif Require Import ModelParser SpecAccepts LemmasBase LemmasSoundDeref.

Inductive same_tok : tok -> tok -> Prop :=
| st_same t : same_tok t t
| st_bytes l l' : same_tok (KBytes l) (KBytes l').
Notation same_toks := (Forall2 same_tok).

Lemma same_refl ts : same_toks ts ts.
Proof. induction ts; constructor; [constructor|assumption]. Qed.

Definition no_bytes (t : tok) : Prop := match t with KBytes _ => False | _ => Logic.True end.
Lemma same_no_bytes t t' : no_bytes t -> same_tok t t' -> t' = t.
Proof. intros N H. destruct H; [reflexivity|contradiction]. Qed.
Lemma same_eq ts : Forall no_bytes ts -> forall ts', same_toks ts ts' -> ts' = ts.
Proof. induction 1 as [|t ts N F IH]; intros ts' H; inversion H; subst; [reflexivity|]. f_equal; [now apply same_no_bytes|now apply IH]. Qed.

Section Words.
  Variable id : bytes -> Z.
  Variable name : Z -> bytes.
  Notation nbs := (Forall no_bytes).

  Lemma nb_app l l' : nbs l -> nbs l' -> nbs (l ++ l').
  Proof. intros H H'. apply Forall_app. now split. Qed.
  Lemma nb_infix t op b : In (t, op, b) infix_tokens -> no_bytes t.
  Proof. intros H. cbn in H. repeat destruct H as [H|H]; try contradiction; injection H as <- <- <-; exact Logic.I. Qed.

  Local Hint Resolve nb_app nb_infix : nobytes.
  Ltac pl := repeat first [assumption | exact Logic.I | apply Forall_nil | apply Forall_cons | apply nb_app | (eapply nb_infix; eassumption)]; eauto with nobytes.
  Ltac by_induction := let H := fresh in intros H; induction H; pl.

  Lemma nb_schema_name x ts : schema_name x ts -> nbs ts. Proof. by_induction. Qed.
  Lemma nb_table_name x ts : table_name x ts -> nbs ts. Proof. by_induction. Qed.
  Lemma nb_some_alias x ts : some_alias x ts -> nbs ts. Proof. by_induction. Qed.
  Hint Resolve nb_schema_name nb_table_name nb_some_alias : nobytes.
  Lemma nb_opt_alias x ts : opt_alias x ts -> nbs ts. Proof. by_induction. Qed.
  Lemma nb_names x ts : names x ts -> nbs ts. Proof. by_induction. Qed.
  Lemma nb_dots x ts : dots x ts -> nbs ts. Proof. by_induction. Qed.
  Hint Resolve nb_opt_alias nb_names nb_dots : nobytes.
  Lemma nb_opt_names x ts : opt_names x ts -> nbs ts. Proof. by_induction. Qed.
  Lemma nb_direction x ts : direction x ts -> nbs ts. Proof. by_induction. Qed.
  Hint Resolve nb_opt_names nb_direction : nobytes.
  Lemma nb_key_columns x y ts : key_columns x y ts -> nbs ts. Proof. by_induction. Qed.
  Hint Resolve nb_key_columns : nobytes.
  Lemma nb_index_key u x ts : index_key u x ts -> nbs ts. Proof. by_induction. Qed.
  Lemma nb_order_columns x ts : order_columns x ts -> nbs ts. Proof. by_induction. Qed.
  Hint Resolve nb_index_key nb_order_columns : nobytes.
  Lemma nb_opt_order x ts : opt_order x ts -> nbs ts. Proof. by_induction. Qed.
  Lemma nb_join_words x ts : join_words x ts -> nbs ts. Proof. by_induction. Qed.
  Lemma nb_show x ts : show id name x ts -> nbs ts. Proof. by_induction. Qed.
  Hint Resolve nb_opt_order nb_join_words nb_show : nobytes.
  Lemma nb_a_show x ts : a_show id name x ts -> nbs ts. Proof. by_induction. Qed.
  Hint Resolve nb_a_show : nobytes.
  Lemma nb_ref_action x ts : ref_action x ts -> nbs ts. Proof. by_induction. Qed.
  Hint Resolve nb_ref_action : nobytes.
  Lemma nb_on_actions x y ts : on_actions x y ts -> nbs ts. Proof. by_induction. Qed.
  Hint Resolve nb_on_actions : nobytes.
  Lemma nb_foreign_key c x ts : foreign_key c x ts -> nbs ts. Proof. by_induction. Qed.
  Lemma nb_column_type x ts : column_type x ts -> nbs ts. Proof. by_induction. Qed.
  Hint Resolve nb_foreign_key nb_column_type : nobytes.
  Lemma nb_constraint x ts : a_constraint x ts -> nbs ts. Proof. by_induction. Qed.
  Lemma nb_if_exists x ts : if_exists x ts -> nbs ts. Proof. by_induction. Qed.
  Lemma nb_if_not_exists x ts : if_not_exists x ts -> nbs ts. Proof. by_induction. Qed.
  Lemma nb_table_names x ts : table_names x ts -> nbs ts. Proof. by_induction. Qed.
  Hint Resolve nb_constraint nb_if_exists nb_if_not_exists nb_table_names : nobytes.
  Ltac lists_of := repeat match goal with H : In _ [_; _] |- _ => cbn [In] in H; destruct H as [<-|[<-|[]]] end.
  Lemma nb_alter_action x ts : a_alter_action x ts -> nbs ts.
  Proof. intros H. destruct H; lists_of; pl. Qed.
  Hint Resolve nb_alter_action : nobytes.
  Lemma nb_alter_actions x ts : a_alter_actions x ts -> nbs ts. Proof. by_induction. Qed.
  Hint Resolve nb_alter_actions : nobytes.

  (** The tokens of the other list. *)
  Ltac other := repeat (cbn [app] in *; match goal with
    | H : same_toks [] _ |- _ => inversion H; subst; clear H
    | H : same_toks (_ :: _) _ |- _ => inversion H; subst; clear H
    | H : same_toks (_ ++ _) _ |- _ => apply Forall2_app_inv_l in H; destruct H as (? & ? & ? & ? & ->)
    | H : same_tok (KReserved _) _ |- _ => inversion H; subst; clear H
    | H : same_tok (KIdent _) _ |- _ => inversion H; subst; clear H
    | H : same_tok (KRune _) _ |- _ => inversion H; subst; clear H
    | H : same_tok (KString _) _ |- _ => inversion H; subst; clear H
    | H : same_tok (KInteger _) _ |- _ => inversion H; subst; clear H
    | H : same_tok (KFloat _) _ |- _ => inversion H; subst; clear H
    | H : same_tok (KBytes _) _ |- _ => inversion H; subst; clear H
    | H : same_tok ?t _, K : In (?t, _, _) infix_tokens |- _ => apply (same_no_bytes _ _ (nb_infix _ _ _ K)) in H; subst
    end);
    repeat match goal with
    | H : same_toks ?ts ?ts' |- _ => let N := fresh in assert (N : nbs ts) by (solve [eauto with nobytes]); apply (same_eq ts N) in H; clear N; subst ts'
    end.
  Ltac sb := intros; other; solve [repeat first [assumption | reflexivity | discriminate | match goal with IH : forall l, same_toks ?ts l -> _, S : same_toks ?ts ?l |- _ => apply (IH l S) end | econstructor; solve [eauto]]].

  Lemma same_grammar :
    (forall o e ts, a_operand id name o e ts -> forall ts', same_toks ts ts' -> a_operand id name o e ts') /\
    (forall c e ts, a_sub id name c e ts -> forall ts', same_toks ts ts' -> a_sub id name c e ts') /\
    (forall l ts, a_args id name l ts -> forall ts', same_toks ts ts' -> a_args id name l ts') /\
    (forall e ts, a_whole id name e ts -> forall ts', same_toks ts ts' -> a_whole id name e ts') /\
    (forall l ts, a_wholes id name l ts -> forall ts', same_toks ts ts' -> a_wholes id name l ts') /\
    (forall l ts, a_rows id name l ts -> forall ts', same_toks ts ts' -> a_rows id name l ts') /\
    (forall r ts, a_result id name r ts -> forall ts', same_toks ts ts' -> a_result id name r ts') /\
    (forall l ts, a_results id name l ts -> forall ts', same_toks ts ts' -> a_results id name l ts') /\
    (forall o ts, a_opt_results id name o ts -> forall ts', same_toks ts ts' -> a_opt_results id name o ts') /\
    (forall k o ts, a_opt_whole id name k o ts -> forall ts', same_toks ts ts' -> a_opt_whole id name k o ts') /\
    (forall l ts, a_opt_group id name l ts -> forall ts', same_toks ts ts' -> a_opt_group id name l ts') /\
    (forall o ts, a_opt_from id name o ts -> forall ts', same_toks ts ts' -> a_opt_from id name o ts') /\
    (forall s ts, a_select id name s ts -> forall ts', same_toks ts ts' -> a_select id name s ts') /\
    (forall s ts, a_query id name s ts -> forall ts', same_toks ts ts' -> a_query id name s ts') /\
    (forall f ts, a_from_operand id name f ts -> forall ts', same_toks ts ts' -> a_from_operand id name f ts') /\
    (forall (c : bool) f ts, a_from_item id name c f ts -> forall ts', same_toks ts ts' -> a_from_item id name c f ts') /\
    (forall f ts, a_from_list id name f ts -> forall ts', same_toks ts ts' -> a_from_list id name f ts') /\
    (forall f f' ts, a_from_more id name f f' ts -> forall ts', same_toks ts ts' -> a_from_more id name f f' ts').
  Proof. apply accepts_min; sb. Qed.

  Lemma same_whole e ts ts' : a_whole id name e ts -> same_toks ts ts' -> a_whole id name e ts'.
  Proof. intros H. now apply same_grammar. Qed.
  Lemma same_rows l ts ts' : a_rows id name l ts -> same_toks ts ts' -> a_rows id name l ts'.
  Proof. intros H. now apply same_grammar. Qed.
  Lemma same_select s ts ts' : a_select id name s ts -> same_toks ts ts' -> a_select id name s ts'.
  Proof. intros H. now apply same_grammar. Qed.
  Lemma same_opt_whole k o ts ts' : a_opt_whole id name k o ts -> same_toks ts ts' -> a_opt_whole id name k o ts'.
  Proof. intros H. now apply same_grammar. Qed.
  Local Hint Resolve same_whole same_rows same_select same_opt_whole : same.
  Ltac se := intros; other; solve [econstructor; solve [eauto with same]].

  Lemma same_or_default o ts ts' : a_or_default id name o ts -> same_toks ts ts' -> a_or_default id name o ts'.
  Proof. destruct 1; se. Qed.
  Local Hint Resolve same_or_default : same.
  Lemma same_insert_row l ts : a_insert_row id name l ts -> forall ts', same_toks ts ts' -> a_insert_row id name l ts'.
  Proof. induction 1; se. Qed.
  Local Hint Resolve same_insert_row : same.
  Lemma same_insert_rows l ts : a_insert_rows id name l ts -> forall ts', same_toks ts ts' -> a_insert_rows id name l ts'.
  Proof. induction 1; se. Qed.
  Lemma same_updates l ts : a_updates id name l ts -> forall ts', same_toks ts ts' -> a_updates id name l ts'.
  Proof. induction 1; se. Qed.
  Local Hint Resolve same_insert_rows same_updates : same.
  Lemma same_column_details c col st ts st' : a_column_details id name c col st ts st' -> forall ts', same_toks ts ts' -> a_column_details id name c col st ts' st'.
  Proof. induction 1; se. Qed.
  Local Hint Resolve same_column_details : same.
  Lemma same_table_detail s ts s' : a_table_detail id name s ts s' -> forall ts', same_toks ts ts' -> a_table_detail id name s ts' s'.
  Proof.
    destruct 1; try se. intros ts' S. assert (N : nbs (tc ++ (if pr then [KReserved kPRIMARY; KReserved kKEY] else [KReserved kUNIQUE]) ++ ts)) by (destruct pr; pl). apply (same_eq _ N) in S. subst ts'. now constructor.
  Qed.
  Local Hint Resolve same_table_detail : same.
  Lemma same_table_details s ts s' : a_table_details id name s ts s' -> forall ts', same_toks ts ts' -> a_table_details id name s ts' s'.
  Proof. induction 1; se. Qed.
  Local Hint Resolve same_table_details : same.

  Context {X : FloatLib} {P : PrintLib}.
  Lemma same_option_value v t t' : a_option_value name v t -> same_tok t t' -> a_option_value name v t'.
  Proof. intros [v0 t0 H|b l] S; [|inversion S; subst; apply aov_bytes]. apply same_no_bytes in S; [subst; now constructor|]. destruct H; exact Logic.I. Qed.
  Local Hint Resolve same_option_value : same.
  Lemma same_db_options l ts : a_db_options name l ts -> forall ts', same_toks ts ts' -> a_db_options name l ts'.
  Proof.
    induction 1 as [i v t eq V E|i v t eq l ts V E H IH]; intros ts' S.
    - destruct E as [<-|[<-|[]]]; other; match goal with S : same_tok t ?y |- _ => first [apply (ado_one name i v y []) | apply (ado_one name i v y [KRune 61])] end; eauto with same; cbn; tauto.
    - destruct E as [<-|[<-|[]]]; other; match goal with S : same_tok t ?y |- _ => first [apply (ado_more name i v y []) | apply (ado_more name i v y [KRune 61])] end; eauto with same; cbn; tauto.
  Qed.
  Lemma same_setting v ts ts' : a_setting id name v ts -> same_toks ts ts' -> a_setting id name v ts'.
  Proof. destruct 1; se. Qed.
  Local Hint Resolve same_db_options same_setting : same.

  Lemma same_accepts s ts ts' : accepts id name s ts -> same_toks ts ts' -> accepts id name s ts'.
  Proof.
    intros H. pose proof H as H0. destruct H; try se.
    all: try (intros S; match type of S with same_toks ?l _ => assert (N : nbs l) by (lists_of; try destruct u; pl); apply (same_eq _ N) in S; subst ts'; exact H0 end).
    - destruct H as [[-> ->]|[[-> ->]| ->]]; se.
    - destruct H as [[-> ->]|[[-> ->]| ->]]; se.
  Qed.
End Words.
