(** Statements of the grammar have no literals of bytes: nothing depends on the
    scanner's buffer. *)

From Verif Require Import ModelParser SpecExpr SpecGrammar LemmasBase LemmasAdjust LemmasRegroup LemmasGrammarExpr.

Section Deref.
  Context {B : BufLib}.
  Variable b : buffer.

  Definition deref_word (w : word) : word := match w with WAtom e => WAtom (deref_expr b e) | _ => w end.
  Fixpoint arg_words (args : list expr) : list word :=
    match args with [] => [] | a :: args' => words a ++ [WComma] ++ arg_words args' end.
  Fixpoint args_tight (args : list expr) : Prop :=
    match args with [] => Logic.True | a :: args' => tight a /\ args_tight args' end.
  Lemma words_sexpr f args : words (SExpr f args) = WCall f :: arg_words args ++ [WClose].
  Proof. reflexivity. Qed.
  Lemma tight_sexpr f args : tight (SExpr f args) = args_tight args.
  Proof. reflexivity. Qed.

  Lemma words_deref e : words (deref_expr b e) = map deref_word (words e).
  Proof.
    induction e as [e IH] using expr_ind_size. destruct e as [v|ids|nam args|op x|op l r|op eop e0 s]; try reflexivity.
    - cbn [deref_expr]. rewrite !words_sexpr. cbn [map deref_word]. rewrite map_app. cbn [map deref_word]. f_equal. f_equal.
      assert (H : forall a, In a args -> words (deref_expr b a) = map deref_word (words a)) by (intros a Ha; apply IH; rewrite size_sexpr; pose proof (args_size a args Ha); lia).
      clear IH. induction args as [|a args IHa]; [reflexivity|]. cbn [map arg_words]. rewrite (H a) by (now left). rewrite IHa by (intros; apply H; now right). now rewrite !map_app.
    - cbn [deref_expr words]. assert (H : words (deref_expr b x) = map deref_word (words x)) by (apply IH; cbn; lia).
      destruct op; cbn [words app map deref_word]; rewrite H; try reflexivity. rewrite map_app. reflexivity.
    - cbn [deref_expr words]. rewrite (IH l), (IH r) by (cbn; lia). rewrite !map_app. reflexivity.
  Qed.

  Lemma outer_deref e : outer (deref_expr b e) = outer e.
  Proof. destruct e; reflexivity. Qed.
  Lemma edge_deref e : edge (deref_expr b e) = edge e.
  Proof.
    induction e as [e IH] using expr_ind_size. destruct e as [v|ids|nam args|op x|op l r|op eop e0 s]; try reflexivity.
    - cbn [deref_expr edge]. rewrite (IH x) by (cbn; lia). reflexivity.
    - cbn [deref_expr edge]. apply IH. cbn; lia.
  Qed.

  Lemma tight_deref e : tight e -> tight (deref_expr b e).
  Proof.
    induction e as [e IH] using expr_ind_size. destruct e as [v|ids|nam args|op x|op l r|op eop e0 s]; try exact (fun H => H).
    - cbn [deref_expr]. rewrite !tight_sexpr.
      assert (H : forall a, In a args -> tight a -> tight (deref_expr b a)) by (intros a Ha; apply IH; rewrite size_sexpr; pose proof (args_size a args Ha); lia).
      clear IH. induction args as [|a args IHa]; [exact (fun H => H)|]. cbn [map args_tight]. intros [T1 T2]. split; [apply H; [now left|exact T1]|]. apply IHa; [|exact T2]. intros; apply H; [now right|assumption].
    - assert (H : tight x -> tight (deref_expr b x)) by (apply IH; cbn; lia). cbn [deref_expr tight]. rewrite outer_deref. destruct op; tauto.
    - cbn [deref_expr tight]. rewrite !outer_deref, edge_deref. intros (T1 & T2 & T3 & T4). split; [exact T1|]. split; [apply IH; [cbn; lia|exact T2]|]. split; [apply IH; [cbn; lia|exact T3]|exact T4].
  Qed.

  Variable id : bytes -> Z.
  Variable name : Z -> bytes.

  Notation dx := (deref_expr b).
  Notation ds := (deref_stmt b).
  Notation df := (deref_from b).

  Lemma deref_show s ts : show id name s ts -> ds s = s.
  Proof.
    destruct 1; try reflexivity. cbn. unfold schema_is. destruct (tn_schema tn =? 0); reflexivity.
  Qed.

  Lemma deref_order o ts : opt_order o ts -> map (fun p => (dx (fst p), snd p)) o = o.
  Proof.
    destruct 1 as [|l ts H]; [reflexivity|]. induction H; [reflexivity|]. cbn [map fst snd deref_expr]. now rewrite IHorder_columns.
  Qed.

  Definition deref_result (r : selectresult expr) : selectresult expr :=
    match r with TableResult t => TableResult t | ExprResult e a => ExprResult (dx e) a end.

  Lemma deref_grammar :
    (forall e ts, operand id name e ts -> dx e = e) /\
    (forall e ts, sub id name e ts -> dx e = e) /\
    (forall l ts, args id name l ts -> map dx l = l) /\
    (forall e ts, whole id name e ts -> dx e = e) /\
    (forall l ts, wholes id name l ts -> map dx l = l) /\
    (forall l ts, SpecGrammar.rows id name l ts -> map (map dx) l = l) /\
    (forall r ts, SpecGrammar.result id name r ts -> deref_result r = r) /\
    (forall l ts, results id name l ts -> map deref_result l = l) /\
    (forall o ts, SpecGrammar.opt_results id name o ts -> option_map (map deref_result) o = o) /\
    (forall k o ts, SpecGrammar.opt_whole id name k o ts -> option_map dx o = o) /\
    (forall l ts, SpecGrammar.opt_group id name l ts -> map dx l = l) /\
    (forall o ts, SpecGrammar.opt_from id name o ts -> option_map df o = o) /\
    (forall s ts, SpecGrammar.select id name s ts -> ds s = s) /\
    (forall s ts, SpecGrammar.query id name s ts -> ds s = s) /\
    (forall f ts, SpecGrammar.from_operand id name f ts -> df f = f) /\
    (forall (c : bool) f ts, SpecGrammar.from_item id name c f ts -> df f = f) /\
    (forall f ts, SpecGrammar.from_list id name f ts -> df f = f) /\
    (forall f f' ts, SpecGrammar.from_more id name f f' ts -> df f = f -> df f' = f').
  Proof.
    apply (grammar_min id name (fun e _ => dx e = e) (fun e _ => dx e = e) (fun l _ => map dx l = l) (fun e _ => dx e = e) (fun l _ => map dx l = l)
      (fun l _ => map (map dx) l = l) (fun r _ => deref_result r = r) (fun l _ => map deref_result l = l) (fun o _ => option_map (map deref_result) o = o)
      (fun _ o _ => option_map dx o = o) (fun l _ => map dx l = l) (fun o _ => option_map df o = o) (fun s _ => ds s = s) (fun s _ => ds s = s)
      (fun f _ => df f = f) (fun _ f _ => df f = f) (fun f _ => df f = f) (fun f f' _ => df f = f -> df f' = f')); intros; cbn [deref_expr deref_stmt deref_from map option_map deref_value deref_result];
      try reflexivity; try congruence.
    (* whole *)
    - rename H1 into T, H2 into W. apply tight_unique; [now apply tight_deref|exact T|]. rewrite words_deref, W, <- words_deref. congruence.
    - (* select *)
      fold deref_result. change (option_map (map (fun r => match r with TableResult t => TableResult t | ExprResult e a => ExprResult (dx e) a end)) r) with (option_map (map deref_result) r).
      erewrite deref_order by eassumption. congruence.
    - eapply deref_show; eassumption.
    - auto.
    - match goal with H : _ -> df f' = f' |- _ => apply H end. cbn [deref_from option_map]. congruence.
  Qed.

  Lemma deref_whole e ts : whole id name e ts -> dx e = e.
  Proof. apply deref_grammar. Qed.
  Lemma deref_opt_whole k o ts : opt_whole id name k o ts -> option_map dx o = o.
  Proof. apply deref_grammar. Qed.
  Lemma deref_sub e ts : sub id name e ts -> dx e = e.
  Proof. apply deref_grammar. Qed.

  Lemma deref_select s ts : select id name s ts -> ds s = s.
  Proof. pose proof deref_grammar as G. decompose [and] G. eauto. Qed.
  Lemma deref_rows l ts : rows id name l ts -> map (map dx) l = l.
  Proof. pose proof deref_grammar as G. decompose [and] G. eauto. Qed.

  Lemma deref_or_default o ts : or_default id name o ts -> option_map dx o = o.
  Proof. destruct 1; [reflexivity|]. cbn [option_map]. f_equal. eapply deref_whole; eassumption. Qed.

  Definition dc (c : constraint expr) : constraint expr :=
    {| con_type := con_type c; con_name := con_name c; con_colnum := con_colnum c; con_key := con_key c; con_check := option_map dx (con_check c) |}.

  Lemma deref_column_details c col st ts st' : column_details id name c col st ts st' ->
    option_map dx (snd (fst (fst st))) = snd (fst (fst st)) /\ map dc (snd (fst st)) = snd (fst st) ->
    option_map dx (snd (fst (fst st'))) = snd (fst (fst st')) /\ map dc (snd (fst st')) = snd (fst st').
  Proof.
    induction 1; try exact (fun H => H); cbn [fst snd] in *; intros [K1 K2]; apply IHcolumn_details; clear IHcolumn_details;
      (split; [try exact K1; cbn [option_map]; f_equal; eapply deref_whole; eassumption|]); try exact K2; rewrite map_app, K2; f_equal; try reflexivity.
    unfold check_constraint, dc. cbn. now erewrite deref_whole by eassumption.
  Qed.
  Definition table_fine (s : ctable) : Prop := map (option_map dx) (cb_defaults s) = cb_defaults s /\ map dc (cb_csts s) = cb_csts s.
  Lemma deref_table_detail s ts s' : table_detail id name s ts s' -> table_fine s -> table_fine s'.
  Proof.
    destruct 1; intros [K1 K2]; unfold table_fine in *; cbn [cb_defaults cb_csts].
    - destruct (deref_column_details _ _ _ _ _ H1) as [D1 D2]; [cbn; now split|]. cbn [fst snd] in *. rewrite map_app, K1. cbn [map]. rewrite D1. now split.
    - split; [exact K1|]. now rewrite map_app, K2.
    - split; [exact K1|]. rewrite map_app, K2. unfold check_constraint, dc. cbn. now erewrite deref_whole by eassumption.
    - now split.
  Qed.
  Lemma deref_table_details s ts s' : table_details id name s ts s' -> table_fine s -> table_fine s'.
  Proof.
    induction 1; intros K; [eapply deref_table_detail; eassumption|]. apply IHtable_details. eapply deref_table_detail; eassumption.
  Qed.

  Lemma deref_says {X : FloatLib} {P : PrintLib} s ts : says id name s ts -> ds s = s.
  Proof.
    destruct 1; try reflexivity; cbn [deref_stmt].
    - eapply deref_select; eassumption.
    - f_equal. eapply deref_rows; eassumption.
    - eapply deref_show; eassumption.
    - f_equal. eapply deref_select; eassumption.
    - f_equal. eapply deref_select; eassumption.
    - f_equal. rename H2 into K. assert (KK : forall l t, insert_row id name l t -> map (option_map dx) l = l).
      { induction 1; cbn [map]; erewrite deref_or_default by eassumption; congruence. }
      clear - K KK. induction K; cbn [map]; erewrite KK by eassumption; congruence.
    - f_equal; [|eapply deref_opt_whole; eassumption]. rename H0 into K. clear - K. induction K; cbn [map fst snd]; erewrite deref_or_default by eassumption; congruence.
    - f_equal. eapply deref_opt_whole; eassumption.
    - destruct (deref_table_details _ _ _ H1) as [K1 K2]; [now split|]. f_equal; [exact K1|exact K2].
  Qed.
End Deref.
