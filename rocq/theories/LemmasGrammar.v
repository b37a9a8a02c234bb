(** The parser reads what the grammar says: names, keys and the like. *)

From Verif Require Import ModelParser SpecGrammar LemmasBase LemmasListRun.

Definition next (P : tok -> Prop) (l : list tok) : Prop := match l with [] => False | t :: _ => P t end.
Lemma next_mono (P Q : tok -> Prop) l : next P l -> (forall t, P t -> Q t) -> next Q l.
Proof. destruct l; cbn; auto. Qed.
Lemma next_app (P : tok -> Prop) l l' : next P l -> next P (l ++ l').
Proof. destruct l; cbn; auto. contradiction. Qed.

Definition no_rune (r : Z) (t : tok) : Prop := rune_of t <> r.
Definition no_word (ids : list Z) (t : tok) : Prop := is_reserved t ids = false.
Definition no_ident (t : tok) : Prop := match t with KIdent _ => False | _ => True end.

(** The tokens that were read. *)
Ltac past := repeat (progress (cbn [rev app]; rewrite ?rev_app_distr, <- ?app_assoc)); reflexivity.

(** One step of the parser. *)
Ltac lred := cbv beta iota zeta; cbn [app].
Ltac side := first [assumption | reflexivity | discriminate].
Ltac step1 :=
  lazymatch goal with
  | |- lrun _ _ (abind (abind _ _) _) _ _ = _ => rewrite lrun_assoc
  | |- lrun _ _ (abind (ARet _) _) _ _ = _ => rewrite l_ret
  | |- lrun _ _ (abind scan_ _) _ (_ :: _) = _ => rewrite l_scan
  | |- lrun _ _ (abind unscan_ _) (_ :: _) _ = _ => rewrite l_unscan
  | |- lrun _ _ (abind tok_ _) (_ :: _) _ = _ => rewrite l_tok
  | |- lrun _ _ (abind (intern_ _) _) _ _ = _ => rewrite l_intern
  | |- lrun _ _ (abind expectIdentifier _) _ (KIdent _ :: _) = _ => rewrite l_expectIdentifier
  | |- lrun _ _ (abind (expectReserved _) _) _ (KReserved _ :: _) = _ => rewrite l_expectReserved by reflexivity
  | |- lrun _ _ (abind (optionalReserved _) _) _ (_ :: _) = _ => first [rewrite l_optional_no by side | rewrite l_optional_yes by side]
  | |- lrun _ _ (abind (maybeToken _) _) _ (_ :: _) = _ => first [rewrite l_maybe_yes by side | rewrite l_maybe_no by side]
  | |- lrun _ _ (abind (expectTokens _) _) _ (_ :: _) = _ => rewrite l_expectTokens by side
  | |- lrun _ _ (abind (aloop (S _) _ _) _) _ _ = _ => rewrite l_loop
  end; lred.
Ltac steps := repeat step1.
Ltac norm_toks := repeat (progress (cbn [app]; rewrite <- ?app_assoc)).
(** By what is known of [g]. *)
Ltac use H := steps; erewrite (reads_use _ _ _ _ _ _ _ _ _ _ H); [lred|idtac|norm_toks; reflexivity].

Section Reads.
  Variable id : bytes -> Z.
  Variable name : Z -> bytes.
  Notation reads := (reads id name).

  Lemma reads_schemaName sn ts : schema_name sn ts -> reads parseSchemaName ts sn (next (no_rune tDot)).
  Proof.
    intros H B h p rest F. destruct rest as [|t rest]; [contradiction|]. cbn [next] in F. unfold no_rune in F. unfold parseSchemaName. destruct H; norm_toks; steps; past.
  Qed.
  Lemma reads_tableName tn ts : table_name tn ts -> reads parseTableName ts tn (next (no_rune tDot)).
  Proof.
    intros H B h p rest F. destruct rest as [|t rest]; [contradiction|]. cbn [next] in F. unfold no_rune in F. unfold parseTableName. destruct H; norm_toks; steps; past.
  Qed.
  Lemma reads_someAlias b a ts : some_alias a ts -> reads (parseAlias b) ts a (next (fun _ => True)).
  Proof.
    intros H B h p rest F. destruct rest as [|t rest]; [contradiction|]. unfold parseAlias. destruct H; norm_toks; steps; try past.
  Qed.
  Definition after_alias (t : tok) : Prop := no_ident t /\ no_word [kAS] t.
  Lemma reads_optAlias a ts : opt_alias a ts -> reads (parseAlias false) ts a (next after_alias).
  Proof.
    intros H. destruct H as [|a ts H]; [|eapply reads_mono; [now apply reads_someAlias|intros l K; eapply next_mono; [exact K|trivial]]].
    intros B h p rest F. destruct rest as [|t rest]; [contradiction|]. cbn [next] in F. destruct F as [F1 F2]. unfold no_word in F2. unfold parseAlias. norm_toks. steps.
    destruct t; try contradiction; steps; past.
  Qed.

  Lemma reads_columns_from n l ts : names l ts -> (length ts < n)%nat -> forall c0,
    reads (aloop n (fun cols => let+ id := expectIdentifier in let cols := cols ++ [id] in let+ paren := maybeToken tRParen in if paren then ARet (inr cols) else expectTokens [tComma] ;+ ARet (inl cols)) c0)
      (ts ++ [KRune tRParen]) (c0 ++ l) (fun _ => True).
  Proof.
    intros H. revert n. induction H as [i|i l ts H IH]; intros n Hn c0 B h p rest _; (destruct n as [|n]; [cbn in Hn; lia|]); norm_toks; steps.
    - past.
    - cbn [length] in Hn. use (IH n ltac:(lia) (c0 ++ [i])); [|exact Logic.I]. rewrite <- app_assoc. past.
  Qed.
  Lemma reads_columns n l ts : names l ts -> (length ts < n)%nat -> reads (parseColumns n) (ts ++ [KRune tRParen]) l (fun _ => True).
  Proof. intros H Hn. exact (reads_columns_from n l ts H Hn []). Qed.

  Lemma reads_distinct_from n l ts : names l ts -> (length ts < n)%nat -> forall c0, NoDup (c0 ++ l) ->
    reads (aloop n (fun cols => let+ id := expectIdentifier in if mem id cols then AError else let cols := cols ++ [id] in let+ r := expectTokens [tComma; tRParen] in if r =? tRParen then ARet (inr cols) else ARet (inl cols)) c0)
      (ts ++ [KRune tRParen]) (c0 ++ l) (fun _ => True).
  Proof.
    assert (M : forall i (c0 : list Z) l, NoDup (c0 ++ i :: l) -> mem i c0 = false).
    { intros i c0 l0 N. apply NoDup_remove_2 in N. unfold mem. apply Bool.not_true_is_false. intros E. apply existsb_exists in E. destruct E as (x & E1 & E2). apply Z.eqb_eq in E2. subst x.
      apply N. apply in_or_app. now left. }
    intros H. revert n. induction H as [i|i l ts H IH]; intros n Hn c0 N B h p rest _; (destruct n as [|n]; [cbn in Hn; lia|]); norm_toks; steps; rewrite (M _ _ _ N); steps; cbn [rune_of Z.eqb Pos.eqb]; steps.
    - past.
    - cbn [length] in Hn. use (IH n ltac:(lia) (c0 ++ [i]) ltac:(now rewrite <- app_assoc)); [|exact Logic.I]. rewrite <- app_assoc. past.
  Qed.
  Lemma reads_distinct n l ts : names l ts -> NoDup l -> (length ts < n)%nat -> reads (parseDistinctColumns n) (ts ++ [KRune tRParen]) l (fun _ => True).
  Proof. intros H N Hn. exact (reads_distinct_from n l ts H Hn [] N). Qed.
  Lemma reads_columnAliases n l ts : opt_names l ts -> (length ts < n)%nat -> reads (parseColumnAliases n) ts l (next (no_rune tLParen)).
  Proof.
    intros H Hn B h p rest F. destruct rest as [|t rest]; [contradiction|]. cbn [next] in F. unfold no_rune in F. unfold parseColumnAliases.
    destruct H as [|l ts H]; norm_toks; steps; [past|]. cbn [length] in Hn. rewrite app_length in Hn. use (reads_columns n l ts H ltac:(lia)); [|exact Logic.I]. past.
  Qed.

  Definition after_direction (t : tok) : Prop := no_word [kASC] t /\ no_word [kDESC] t.
  Lemma comma_direction r : next after_direction (KRune r :: []).
  Proof. now split. Qed.
  Lemma reads_key_from n u l rs ts : key_columns l rs ts -> (length ts < n)%nat -> forall c0 r0, NoDup (c0 ++ l) ->
    reads (aloop n (fun '(cols, rev) =>
        let+ nam := expectIdentifier in
        if mem nam cols then AError
        else
          let cols := cols ++ [nam] in
          let+ asc := optionalReserved [kASC] in
          let+ rev :=
            (if asc then ARet (rev ++ [false])
             else
               let+ desc := optionalReserved [kDESC] in
               if desc then ARet (rev ++ [true]) else ARet (rev ++ [false])) in
          let+ r := expectTokens [tComma; tRParen] in
          if r =? tRParen then ARet (inr {| ik_unique := u; ik_columns := cols; ik_reverse := rev |})
          else ARet (inl (cols, rev))) (c0, r0))
      (ts ++ [KRune tRParen]) {| ik_unique := u; ik_columns := c0 ++ l; ik_reverse := r0 ++ rs |} (fun _ => True).
  Proof.
    assert (M : forall i (c0 : list Z) l, NoDup (c0 ++ i :: l) -> mem i c0 = false).
    { intros i c0 l0 N. apply NoDup_remove_2 in N. unfold mem. apply Bool.not_true_is_false. intros E. apply existsb_exists in E. destruct E as (x & E1 & E2). apply Z.eqb_eq in E2. subst x.
      apply N. apply in_or_app. now left. }
    intros H. revert n. induction H as [i r ts D|i r ts l rs ts' D H IH]; intros n Hn c0 r0 N B h p rest _; (destruct n as [|n]; [cbn in Hn; lia|]); norm_toks; steps; rewrite (M _ _ _ N);
      (destruct D; norm_toks; steps; cbn [rune_of Z.eqb Pos.eqb]; steps; try past); cbn [length] in Hn; rewrite app_length in Hn; cbn [length] in Hn;
      (use (IH n ltac:(lia) (c0 ++ [i]) (r0 ++ [false]) ltac:(now rewrite <- app_assoc)) || use (IH n ltac:(lia) (c0 ++ [i]) (r0 ++ [true]) ltac:(now rewrite <- app_assoc)));
      try exact Logic.I; rewrite <- !app_assoc; past.
  Qed.
  Lemma reads_key n u k ts : index_key u k ts -> (length ts < n)%nat -> reads (parseKey n u) ts k (fun _ => True).
  Proof.
    intros [l rs ts0 H N] Hn B h p rest _. unfold parseKey. norm_toks. steps. cbn [length] in Hn. rewrite app_length in Hn.
    use (reads_key_from n u l rs ts0 H ltac:(lia) [] [] N); [|exact Logic.I]. past.
  Qed.

  Lemma reads_order_from n l ts : order_columns l ts -> (length ts < n)%nat -> forall l0,
    reads (aloop n (fun l =>
      let+ id := expectIdentifier in
      let+ desc := optionalReserved [kDESC] in
      (if desc then ARet tt else optionalReserved [kASC] ;+ ARet tt) ;+
      let l := l ++ [(Ref [id], desc)] in
      let+ comma := maybeToken tComma in
      if comma then ARet (inl l) else ARet (inr l)) l0) ts (l0 ++ l) (next (fun t => after_direction t /\ no_rune tComma t)).
  Proof.
    intros H. revert n. induction H as [i r ts D|i r ts l ts' D H IH]; intros n Hn l0 B h p rest F; (destruct n as [|n]; [cbn in Hn; lia|]).
    - destruct rest as [|t rest]; [contradiction|]. destruct F as [[F1 F2] F3]. unfold no_word, no_rune in *. norm_toks. steps. destruct D; norm_toks; steps; past.
    - norm_toks. steps. destruct D; norm_toks; steps; cbn [length] in Hn; try rewrite app_length in Hn; cbn [length] in Hn;
      (use (IH n ltac:(lia) (l0 ++ [(Ref [i], false)])) || use (IH n ltac:(lia) (l0 ++ [(Ref [i], true)]))); try exact F; rewrite <- !app_assoc; past.
  Qed.
  Lemma reads_order n l ts : order_columns l ts -> (length ts < n)%nat -> reads (parseOrderBy_ n) ts l (next (fun t => after_direction t /\ no_rune tComma t)).
  Proof. intros H Hn. exact (reads_order_from n l ts H Hn []). Qed.

  (** What may follow a query. *)
  Definition after_query (t : tok) : Prop := In t [KRune tRParen; KEnd; KEOF].
  Lemma aq_rune t r : after_query t -> r <> tRParen -> r <> tEndOfStatement -> r <> tEOF -> rune_of t <> r.
  Proof. intros [<-|[<-|[<-|[]]]] H1 H2 H3; cbn; congruence. Qed.
  Lemma aq_word t ids : after_query t -> is_reserved t ids = false.
  Proof. now intros [<-|[<-|[<-|[]]]]. Qed.

  Lemma reads_show s ts : show id name s ts -> reads parseShow ts s (next after_query).
  Proof.
    intros H B h p rest F. destruct rest as [|t rest]; [contradiction|]. cbn [next] in F.
    assert (F1 : is_reserved t [kFROM] = false) by (now apply aq_word). assert (F2 : rune_of t <> tDot) by (apply aq_rune; [exact F|discriminate..]).
    unfold parseShow. destruct H as [i tn ts Hi Ht| | | | | |sn ts Hs|i Hi| |]; norm_toks; steps.
    - assert (E : (i =? iCOLUMNS) || (i =? iCONSTRAINTS) = true) by (destruct Hi as [<-|[<-|[]]]; reflexivity). rewrite E. steps. unfold parseShowFromTable. steps.
      use (reads_tableName tn ts Ht); [|exact F2]. steps.
      unfold all_of, schema_is, column_is, text, fromTable, selectFrom.
      destruct Ht; cbn [tn_schema tn_database tn_table Z.eqb]; norm_toks; steps;
        try (destruct (s =? 0) eqn:E0; steps);
        repeat first [rewrite l_name by (cbn [rev app In]; tauto); lred | step1]; past.
    - cbn [Z.eqb Pos.eqb orb]. steps. past.
    - cbn [Z.eqb Pos.eqb orb]. steps. past.
    - cbn [Z.eqb Pos.eqb orb]. steps. past.
    - cbn [Z.eqb Pos.eqb orb]. steps. past.
    - cbn [Z.eqb Pos.eqb orb]. steps. past.
    - cbn [Z.eqb Pos.eqb orb]. steps. use (reads_schemaName sn ts Hs); [|exact F2]. steps. unfold all_of, column_is, text, fromTable, selectFrom.
      destruct Hs; cbn [sn_schema sn_database]; norm_toks; steps; rewrite l_name by (cbn [rev app In]; tauto); steps; past.
    - cbn in Hi. replace (i =? iCOLUMNS) with false by (symmetry; apply Z.eqb_neq; intros ->; tauto). replace (i =? iCONSTRAINTS) with false by (symmetry; apply Z.eqb_neq; intros ->; tauto).
      replace (i =? iCONFIG) with false by (symmetry; apply Z.eqb_neq; intros ->; tauto). replace (i =? iDATABASES) with false by (symmetry; apply Z.eqb_neq; intros ->; tauto).
      replace (i =? iSCHEMAS) with false by (symmetry; apply Z.eqb_neq; intros ->; tauto). replace (i =? iTABLES) with false by (symmetry; apply Z.eqb_neq; intros ->; tauto). cbn [orb]. steps. past.
    - cbn [Z.eqb Pos.eqb orb]. steps. past.
    - cbn [Z.eqb Pos.eqb orb]. steps. past.
  Qed.

End Reads.
