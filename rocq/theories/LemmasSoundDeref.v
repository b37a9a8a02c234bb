(** Literals of bytes stand for any bytes: a statement that is accepted still is when
    they are looked up in the scanner's buffer. *)

From Verif Require Import ModelParser SpecExpr SpecAccepts LemmasBase LemmasAdjust LemmasRegroup LemmasGrammarExpr LemmasGrammarDeref.

Scheme a_operand_min := Minimality for a_operand Sort Prop
with a_sub_min := Minimality for a_sub Sort Prop
with a_args_min := Minimality for a_args Sort Prop
with a_whole_min := Minimality for a_whole Sort Prop
with a_wholes_min := Minimality for a_wholes Sort Prop
with a_rows_min := Minimality for a_rows Sort Prop
with a_result_min := Minimality for a_result Sort Prop
with a_results_min := Minimality for a_results Sort Prop
with a_opt_results_min := Minimality for a_opt_results Sort Prop
with a_opt_whole_min := Minimality for a_opt_whole Sort Prop
with a_opt_group_min := Minimality for a_opt_group Sort Prop
with a_opt_from_min := Minimality for a_opt_from Sort Prop
with a_select_min := Minimality for a_select Sort Prop
with a_query_min := Minimality for a_query Sort Prop
with a_from_operand_min := Minimality for a_from_operand Sort Prop
with a_from_item_min := Minimality for a_from_item Sort Prop
with a_from_list_min := Minimality for a_from_list Sort Prop
with a_from_more_min := Minimality for a_from_more Sort Prop.
Combined Scheme accepts_min from a_operand_min, a_sub_min, a_args_min, a_whole_min, a_wholes_min, a_rows_min, a_result_min, a_results_min,
  a_opt_results_min, a_opt_whole_min, a_opt_group_min, a_opt_from_min, a_select_min, a_query_min, a_from_operand_min, a_from_item_min, a_from_list_min, a_from_more_min.

Section Deref.
  Context {B : BufLib}.
  Variable b : buffer.
  Notation dx := (deref_expr b).
  Notation ds := (deref_stmt b).
  Notation df := (deref_from b).

  (** ** Grouping *)

  Fixpoint args_grouped (args : list expr) : Prop :=
    match args with [] => Logic.True | a :: args' => grouped a /\ args_grouped args' end.
  Fixpoint args_read (args : list expr) : Prop :=
    match args with [] => Logic.True | a :: args' => read_right a /\ args_read args' end.
  Lemma grouped_sexpr f args : grouped (SExpr f args) = args_grouped args.
  Proof. reflexivity. Qed.
  Lemma read_sexpr f args : read_right (SExpr f args) = args_read args.
  Proof. reflexivity. Qed.
  Lemma grouped_deref e : grouped e -> grouped (dx e).
  Proof.
    induction e as [e IH] using expr_ind_size. destruct e as [v|ids|nam args|op x|op l r|op eop e0 s]; try exact (fun H => H).
    - cbn [deref_expr]. rewrite !grouped_sexpr.
      assert (H : forall a, In a args -> grouped a -> grouped (dx a)) by (intros a Ha; apply IH; rewrite size_sexpr; pose proof (args_size a args Ha); lia).
      clear IH. induction args as [|a args IHa]; [exact (fun H => H)|]. cbn [map args_grouped]. intros [T1 T2]. split; [apply H; [now left|exact T1]|]. apply IHa; [|exact T2]. intros; apply H; [now right|assumption].
    - assert (H : grouped x -> grouped (dx x)) by (apply IH; cbn; lia). cbn [deref_expr grouped]. rewrite outer_deref. destruct op; tauto.
    - cbn [deref_expr grouped]. rewrite !outer_deref. intros (T1 & T2 & T3). split; [apply IH; [cbn; lia|exact T1]|]. split; [apply IH; [cbn; lia|exact T2]|exact T3].
  Qed.
  Lemma single_deref e : single (dx e) -> single e.
  Proof. destruct e as [v|ids|nam args|op x|op l r|op eop e0 s]; cbn; try exact (fun H => H). Qed.
  Lemma read_deref e : read_right (dx e) -> read_right e.
  Proof.
    induction e as [e IH] using expr_ind_size. destruct e as [v|ids|nam args|op x|op l r|op eop e0 s]; try exact (fun H => H).
    - cbn [deref_expr]. rewrite !read_sexpr.
      assert (H : forall a, In a args -> read_right (dx a) -> read_right a) by (intros a Ha; apply IH; rewrite size_sexpr; pose proof (args_size a args Ha); lia).
      clear IH. induction args as [|a args IHa]; [exact (fun H => H)|]. cbn [map args_read]. intros [T1 T2]. split; [apply H; [now left|exact T1]|]. apply IHa; [|exact T2]. intros; apply H; [now right|assumption].
    - assert (H : read_right (dx x) -> read_right x) by (apply IH; cbn; lia). cbn [deref_expr read_right]. destruct op; tauto.
    - cbn [deref_expr read_right]. intros (T1 & T2 & T3 & T4). split; [exact T1|]. split; [now apply single_deref|]. split; [apply IH; [cbn; lia|exact T3]|apply IH; [cbn; lia|exact T4]].
  Qed.

  Variable id : bytes -> Z.
  Variable name : Z -> bytes.

  Lemma deref_a_show s ts : a_show id name s ts -> ds s = s.
  Proof. destruct 1; [|reflexivity]. eapply deref_show; eassumption. Qed.

  Notation deref_result := (deref_result b).
  Notation a_operand := (a_operand id name).
  Notation a_sub := (a_sub id name).
  Notation a_args := (a_args id name).
  Notation a_whole := (a_whole id name).
  Notation a_wholes := (a_wholes id name).
  Notation a_rows := (a_rows id name).
  Notation a_result := (a_result id name).
  Notation a_results := (a_results id name).
  Notation a_opt_results := (a_opt_results id name).
  Notation a_opt_whole := (a_opt_whole id name).
  Notation a_opt_group := (a_opt_group id name).
  Notation a_opt_from := (a_opt_from id name).
  Notation a_select := (a_select id name).
  Notation a_query := (a_query id name).
  Notation a_from_operand := (a_from_operand id name).
  Notation a_from_item := (a_from_item id name).
  Notation a_from_list := (a_from_list id name).
  Notation a_from_more := (a_from_more id name).

  Lemma deref_a_grammar :
    (forall o e ts, a_operand o e ts -> a_operand o (dx e) ts) /\
    (forall c e ts, a_sub c e ts -> a_sub c (dx e) ts) /\
    (forall l ts, a_args l ts -> a_args (map dx l) ts) /\
    (forall e ts, a_whole e ts -> a_whole (dx e) ts) /\
    (forall l ts, a_wholes l ts -> a_wholes (map dx l) ts) /\
    (forall l ts, a_rows l ts -> a_rows (map (map dx) l) ts) /\
    (forall r ts, a_result r ts -> a_result (deref_result r) ts) /\
    (forall l ts, a_results l ts -> a_results (map deref_result l) ts) /\
    (forall o ts, a_opt_results o ts -> a_opt_results (option_map (map deref_result) o) ts) /\
    (forall k o ts, a_opt_whole k o ts -> a_opt_whole k (option_map dx o) ts) /\
    (forall l ts, a_opt_group l ts -> a_opt_group (map dx l) ts) /\
    (forall o ts, a_opt_from o ts -> a_opt_from (option_map df o) ts) /\
    (forall s ts, a_select s ts -> a_select (ds s) ts) /\
    (forall s ts, a_query s ts -> a_query (ds s) ts) /\
    (forall f ts, a_from_operand f ts -> a_from_operand (df f) ts) /\
    (forall c f ts, a_from_item c f ts -> a_from_item c (df f) ts) /\
    (forall f ts, a_from_list f ts -> a_from_list (df f) ts) /\
    (forall f f' ts, a_from_more f f' ts -> a_from_more (df f) (df f') ts).
  Proof.
    apply accepts_min; intros; cbn [deref_expr deref_stmt deref_from map option_map deref_value LemmasGrammarDeref.deref_result] in *;
      try (econstructor; eassumption).
    - (* grouping *) econstructor; [eassumption|now apply grouped_deref|rewrite !words_deref; now f_equal|]. intros HR. apply tight_deref. auto using read_deref.
    - (* rows *) constructor; try assumption. apply Forall_map. match goal with H : Forall _ _ |- _ => eapply Forall_impl; [|exact H] end. cbn beta. intros l' E. now rewrite !map_length.
    - (* select *)
      change (option_map (map (fun r => match r with TableResult t => TableResult t | ExprResult e a => ExprResult (dx e) a end)) r) with (option_map (map deref_result) r).
      erewrite deref_order by eassumption. now constructor.
    - erewrite deref_a_show by eassumption. now constructor.
  Qed.

  Lemma deref_a_whole e ts : a_whole e ts -> a_whole (dx e) ts.
  Proof. apply deref_a_grammar. Qed.
  Lemma deref_a_opt_whole k o ts : a_opt_whole k o ts -> a_opt_whole k (option_map dx o) ts.
  Proof. apply deref_a_grammar. Qed.
  Lemma deref_a_select s ts : a_select s ts -> a_select (ds s) ts.
  Proof. pose proof deref_a_grammar as G. decompose [and] G. eauto. Qed.
  Lemma deref_a_rows l ts : a_rows l ts -> a_rows (map (map dx) l) ts.
  Proof. pose proof deref_a_grammar as G. decompose [and] G. eauto. Qed.
  Lemma deref_a_or_default o ts : a_or_default id name o ts -> a_or_default id name (option_map dx o) ts.
  Proof. destruct 1; constructor. now apply deref_a_whole. Qed.

  Notation dc := (dc b).

  Lemma key_follows cs ct cn key : key_may_follow cs ct cn key -> key_may_follow (map dc cs) ct cn key.
  Proof. intros H. apply Forall_map. exact H. Qed.
  Lemma column_follows cs ct cn col : column_may_follow cs ct cn col -> column_may_follow (map dc cs) ct cn col.
  Proof. intros H. apply Forall_map. exact H. Qed.

  Definition dst (st : coltype * option expr * list (constraint expr) * list foreignkey) :=
    let '(ct, d, cs, fs) := st in (ct, option_map dx d, map dc cs, fs).
  Lemma deref_a_column_details c col st ts st' : a_column_details id name c col st ts st' -> a_column_details id name c col (dst st) ts (dst st').
  Proof.
    induction 1; cbn [dst option_map] in *; try rewrite map_app in *; cbn [map] in *.
    - now constructor.
    - apply acd_default with (e := dx e); [assumption|now apply deref_a_whole|assumption].
    - apply acd_named_default with (e := dx e); [assumption|now apply column_follows|now apply deref_a_whole|assumption].
    - now apply acd_not_null.
    - eapply acd_named_not_null; [assumption|now apply column_follows|assumption].
    - eapply acd_primary; [eassumption|now apply key_follows|assumption].
    - eapply acd_unique; [eassumption|now apply key_follows|assumption].
    - apply acd_check with (cn := cn) (e := dx e); [assumption|now apply deref_a_whole|assumption].
    - eapply acd_references; eassumption.
  Qed.
  Definition dtable (s : ctable) : ctable :=
    {| cb_cols := cb_cols s; cb_types := cb_types s; cb_defaults := map (option_map dx) (cb_defaults s); cb_csts := map dc (cb_csts s); cb_fks := cb_fks s |}.
  Lemma deref_a_table_detail s ts s' : a_table_detail id name s ts s' -> a_table_detail id name (dtable s) ts (dtable s').
  Proof.
    destruct 1; unfold dtable at 2; cbn [cb_cols cb_types cb_defaults cb_csts cb_fks]; rewrite ?map_app; cbn [map].
    - eapply (atd_column id name (dtable s)); try eassumption. match goal with H : a_column_details _ _ _ _ _ _ _ |- _ => exact (deref_a_column_details _ _ _ _ _ H) end.
    - apply (atd_key id name (dtable s) cn); try assumption. now apply key_follows.
    - apply (atd_check id name (dtable s) cn); [assumption|now apply deref_a_whole].
    - now apply (atd_foreign id name (dtable s) cn).
  Qed.
  Lemma deref_a_table_details s ts s' : a_table_details id name s ts s' -> a_table_details id name (dtable s) ts (dtable s').
  Proof. induction 1; econstructor; try eassumption; now apply deref_a_table_detail. Qed.

  Lemma deref_accepts {X : FloatLib} {P : PrintLib} s ts : accepts id name s ts -> accepts id name (ds s) ts.
  Proof.
    destruct 1; cbn [deref_stmt]; try (econstructor; eassumption).
    - constructor. now apply deref_a_select.
    - constructor. now apply deref_a_rows.
    - erewrite deref_a_show by eassumption. now constructor.
    - constructor. now apply deref_a_select.
    - constructor. now apply deref_a_select.
    - constructor; try assumption. rename H2 into K. assert (KK : forall l t, a_insert_row id name l t -> a_insert_row id name (map (option_map dx) l) t).
      { induction 1; cbn [map]; constructor; try assumption; now apply deref_a_or_default. }
      clear - K KK. induction K; cbn [map]; constructor; auto.
    - constructor; [assumption| |now apply deref_a_opt_whole]. rename H0 into K. clear - K. induction K; cbn [map fst snd]; constructor; try assumption; now apply deref_a_or_default.
    - constructor; [assumption|now apply deref_a_opt_whole].
    - match goal with H : a_table_details _ _ _ _ _ |- _ => apply deref_a_table_details in H; rename H into K end.
      apply (acc_create_table id name b0 tn (dtable s)); assumption.
  Qed.
End Deref.
