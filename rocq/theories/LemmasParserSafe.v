(** Every function of the parser: it does not look back too far, reads something
    before it calls itself, and does not panic but where it is said. *)

From Verif Require Import ModelParser SpecParser LemmasBase LemmasParserWp SpecExpr LemmasAdjust SpecCreate LemmasCreate.

Section Safe.
  Variable bad : bool.
  Variable C : list tok -> Prop.
  Variable M : nat.
  Hypothesis HC : bad = true -> forall past, C past.

  Notation wp := (wp bad C M).
  Notation fine := (fine bad).

  Lemma wp_scan past u m (Q : list tok -> nat -> nat -> tok -> Prop) : (m <= S M)%nat ->
    Q (KEOF :: past) (pred u) m KEOF ->
    (forall t m', fine t -> t <> KEOF -> S m' = m -> Q (t :: past) (pred u) m' t) ->
    wp past u m scan_ Q.
  Proof. intros H1 H2 H3. cbn. now split; [|split]. Qed.

  Lemma wp_unscan t past u m (Q : list tok -> nat -> nat -> unit -> Prop) : (u < 3)%nat ->
    Q past (S u) (m + weight t)%nat tt -> wp (t :: past) u m unscan_ Q.
  Proof. intros H1 H2. cbn. now split. Qed.

  Lemma wp_tok t past u m (Q : list tok -> nat -> nat -> tok -> Prop) : (u < 3)%nat ->
    Q (t :: past) u m t -> wp (t :: past) u m tok_ Q.
  Proof. intros H1 H2. cbn. now split. Qed.

  Lemma wp_ret {A} past u m (a : A) (Q : list tok -> nat -> nat -> A -> Prop) : Q past u m a -> wp past u m (ARet a) Q.
  Proof. exact (fun H => H). Qed.

  Lemma wp_error {A} past u m (Q : list tok -> nat -> nat -> A -> Prop) : (u < 3)%nat -> (m <= M)%nat -> wp past u m AError Q.
  Proof. intros. cbn. lia. Qed.

  Lemma wp_intern past u m s (Q : list tok -> nat -> nat -> Z -> Prop) : (forall i, Q past u m i) -> wp past u m (intern_ s) Q.
  Proof. exact (fun H => H). Qed.

  Lemma wp_name past u m i (Q : list tok -> nat -> nat -> bytes -> Prop) : (forall s, Q past u m s) -> wp past u m (name_ i) Q.
  Proof. exact (fun H => H). Qed.

  Lemma wp_got {A} t past u m (Q : list tok -> nat -> nat -> A -> Prop) : fine t -> (u < 3)%nat -> (m <= M)%nat -> wp (t :: past) u m errorGot Q.
  Proof.
    intros (F1 & F2) Hu Hm. cbn. split; [exact Hu|]. destruct t as [| |[|]| | | | | | | |]; cbn; try (split; lia); try now elim F1.
    apply HC. destruct bad; [reflexivity|]. now elim F2.
  Qed.

  Lemma fine_eof : fine KEOF.
  Proof. split; discriminate. Qed.

  Lemma is_reserved_in t ids : is_reserved t ids = true -> exists id, t = KReserved id /\ In id ids.
  Proof.
    destruct t; cbn; try discriminate. intros H. apply existsb_exists in H. destruct H as (x & H1 & H2). apply Z.eqb_eq in H2. subst x. now exists id.
  Qed.

  Lemma wp_expectReserved ids past u m (Q : list tok -> nat -> nat -> Z -> Prop) : (u <= 3)%nat -> (m <= M)%nat ->
    (forall id m', In id ids -> (m' < m)%nat -> Q (KReserved id :: past) (pred u) m' id) -> wp past u m (expectReserved ids) Q.
  Proof.
    intros Hu Hm HQ. apply wp_bind. apply wp_scan; [lia| |].
    - cbn [is_reserved]. apply wp_got; [apply fine_eof|lia|lia].
    - intros t m' F N Em. destruct (is_reserved t ids) eqn:E.
      + apply is_reserved_in in E. destruct E as (id & -> & I). cbn. apply HQ; [exact I|lia].
      + apply wp_got; [exact F|lia|lia].
  Qed.

  Lemma wp_optionalReserved ids past u m (Q : list tok -> nat -> nat -> bool -> Prop) : (u <= 3)%nat -> (m <= M)%nat ->
    (forall id m', In id ids -> (m' < m)%nat -> Q (KReserved id :: past) (pred u) m' true) ->
    Q past (S (pred u)) m false -> wp past u m (optionalReserved ids) Q.
  Proof.
    intros Hu Hm HQ HF. apply wp_bind. apply wp_scan; [lia| |].
    - cbn [is_reserved]. apply wp_bind. apply wp_unscan; [lia|]. cbn. now rewrite Nat.add_0_r.
    - intros t m' F N Em. destruct (is_reserved t ids) eqn:E.
      + apply is_reserved_in in E. destruct E as (id & -> & I). cbn. apply HQ; [exact I|lia].
      + apply wp_bind. apply wp_unscan; [lia|]. cbn [LemmasParserWp.wp]. replace (m' + weight t)%nat with m; [exact HF|]. destruct t; cbn; try lia. now elim N.
  Qed.

  Lemma wp_expectIdentifier past u m (Q : list tok -> nat -> nat -> Z -> Prop) : (u <= 3)%nat -> (m <= M)%nat ->
    (forall id m', (m' < m)%nat -> Q (KIdent id :: past) (pred u) m' id) -> wp past u m expectIdentifier Q.
  Proof.
    intros Hu Hm HQ. apply wp_bind. apply wp_scan; [lia| |].
    - apply wp_got; [apply fine_eof|lia|lia].
    - intros t m' F N Em. destruct t; try (apply wp_got; [exact F|lia|lia]). cbn. apply HQ. lia.
  Qed.

  Lemma unscan_back {A} (a : A) t past u m (Q : list tok -> nat -> nat -> A -> Prop) : (u < 3)%nat -> t <> KEOF -> Q past (S u) (S m) a ->
    wp (t :: past) u m (unscan_ ;+ ARet a) Q.
  Proof.
    intros Hu N HQ. apply wp_bind. apply wp_unscan; [lia|]. cbn [LemmasParserWp.wp]. replace (m + weight t)%nat with (S m); [exact HQ|].
    destruct t; cbn; try lia. now elim N.
  Qed.

  Lemma wp_maybeIdentifier i past u m (Q : list tok -> nat -> nat -> bool -> Prop) : (u <= 3)%nat -> (m <= M)%nat ->
    (forall id m', (m' < m)%nat -> Q (KIdent id :: past) (pred u) m' true) ->
    Q past (S (pred u)) m false -> wp past u m (maybeIdentifier i) Q.
  Proof.
    intros Hu Hm HQ HF. apply wp_bind. apply wp_scan; [lia| |].
    - cbn. split; [lia|]. now rewrite Nat.add_0_r.
    - intros t m' F N <-. destruct t; try (apply unscan_back; [lia|exact N|exact HF]). destruct (id =? i); [cbn; apply HQ; lia|].
      apply unscan_back; [lia|exact N|exact HF].
  Qed.

  Lemma wp_expectTokens rs past u m (Q : list tok -> nat -> nat -> Z -> Prop) : (u <= 3)%nat -> (m <= M)%nat -> ~ In (-1) rs ->
    (forall t m', In (rune_of t) rs -> (m' < m)%nat -> Q (t :: past) (pred u) m' (rune_of t)) -> wp past u m (expectTokens rs) Q.
  Proof.
    intros Hu Hm HI HQ. apply wp_bind. apply wp_scan; [lia| |].
    - cbn [rune_of]. destruct (existsb (Z.eqb (-1)) rs) eqn:E.
      + apply existsb_exists in E. destruct E as (x & H1 & H2). apply Z.eqb_eq in H2. subst x. contradiction.
      + apply wp_got; [apply fine_eof|lia|lia].
    - intros t m' F N Em. destruct (existsb (Z.eqb (rune_of t)) rs) eqn:E.
      + cbn. apply HQ; [|lia]. apply existsb_exists in E. destruct E as (x & H1 & H2). apply Z.eqb_eq in H2. now subst x.
      + apply wp_got; [exact F|lia|lia].
  Qed.

  Lemma wp_maybeToken r past u m (Q : list tok -> nat -> nat -> bool -> Prop) : (u <= 3)%nat -> (m <= M)%nat -> r <> -1 ->
    (forall t m', rune_of t = r -> (m' < m)%nat -> Q (t :: past) (pred u) m' true) ->
    Q past (S (pred u)) m false -> wp past u m (maybeToken r) Q.
  Proof.
    intros Hu Hm Hr HQ HF. apply wp_bind. apply wp_scan; [lia| |].
    - cbn [rune_of]. destruct (Z.eqb_spec (-1) r); [congruence|]. cbn. split; [lia|]. now rewrite Nat.add_0_r.
    - intros t m' F N <-. destruct (Z.eqb_spec (rune_of t) r).
      + cbn. apply HQ; [assumption|lia].
      + apply unscan_back; [lia|exact N|exact HF].
  Qed.

  Lemma wp_expectInteger lo hi past u m (Q : list tok -> nat -> nat -> Z -> Prop) : (u <= 3)%nat -> (m <= M)%nat ->
    (forall i m', lo <= i <= hi -> (m' < m)%nat -> Q (KInteger i :: past) (pred u) m' i) -> wp past u m (expectInteger lo hi) Q.
  Proof.
    intros Hu Hm HQ. apply wp_bind. apply wp_scan; [lia| |].
    - apply wp_got; [apply fine_eof|lia|lia].
    - intros t m' F N Em. destruct t; try (apply wp_got; [exact F|lia|lia]). destruct ((i <? lo) || (hi <? i)) eqn:E.
      + apply wp_got; [exact F|lia|lia].
      + cbn. apply HQ; lia.
  Qed.

  Lemma wp_expectEnd past u m (Q : list tok -> nat -> nat -> unit -> Prop) : (u <= 3)%nat -> (m <= M)%nat ->
    Q (KEOF :: past) (pred u) m tt -> (forall m', (m' < m)%nat -> Q (KEnd :: past) (pred u) m' tt) -> wp past u m expectEndOfStatement Q.
  Proof.
    intros Hu Hm H1 H2. apply wp_bind. apply wp_scan; [lia|exact H1|]. intros t m' F N Em.
    destruct t; try (apply wp_got; [exact F|lia|lia]); cbn; [now elim N|apply H2; lia].
  Qed.

  Lemma wp_unscan_eof past u m (Q : list tok -> nat -> nat -> unit -> Prop) : (u < 3)%nat ->
    Q past (S u) m tt -> wp (KEOF :: past) u m unscan_ Q.
  Proof. intros H1 H2. cbn. split; [exact H1|]. now rewrite Nat.add_0_r. Qed.

  Lemma wp_unscan_ne t past u m (Q : list tok -> nat -> nat -> unit -> Prop) : (u < 3)%nat -> t <> KEOF ->
    Q past (S u) (S m) tt -> wp (t :: past) u m unscan_ Q.
  Proof. intros H1 N H2. apply wp_unscan; [exact H1|]. replace (m + weight t)%nat with (S m); [exact H2|]. destruct t; cbn; try lia. now elim N. Qed.

  Ltac side := first [lia | discriminate | (let H := fresh in intros H; cbn in H; lia) | assumption].
  Ltac op :=
    lazymatch goal with
    | |- LemmasParserWp.wp _ _ _ _ _ _ (abind _ _) _ => apply wp_bind
    | |- LemmasParserWp.wp _ _ _ _ _ _ (ARet _) _ => apply wp_ret
    | |- LemmasParserWp.wp _ _ _ _ _ _ AError _ => apply wp_error; lia
    | |- LemmasParserWp.wp _ _ _ (_ :: _) _ _ errorGot _ => apply wp_got; [first [apply fine_eof | assumption | split; discriminate]|lia|lia]
    | |- LemmasParserWp.wp _ _ _ _ _ _ (expectReserved _) _ => apply wp_expectReserved; [lia|lia|intros ? ? ? ?]
    | |- LemmasParserWp.wp _ _ _ _ _ _ (optionalReserved _) _ => apply wp_optionalReserved; [lia|lia|intros ? ? ? ?|]
    | |- LemmasParserWp.wp _ _ _ _ _ _ expectIdentifier _ => apply wp_expectIdentifier; [lia|lia|intros ? ? ?]
    | |- LemmasParserWp.wp _ _ _ _ _ _ (maybeIdentifier _) _ => apply wp_maybeIdentifier; [lia|lia|intros ? ? ?|]
    | |- LemmasParserWp.wp _ _ _ _ _ _ (expectTokens _) _ => apply wp_expectTokens; [lia|lia|let H := fresh in intros H; cbn in H; lia|intros ? ? ? ?]
    | |- LemmasParserWp.wp _ _ _ _ _ _ (maybeToken _) _ => apply wp_maybeToken; [lia|lia|discriminate|intros ? ? ? ?|]
    | |- LemmasParserWp.wp _ _ _ _ _ _ (expectInteger _ _) _ => apply wp_expectInteger; [lia|lia|intros ? ? ? ?]
    | |- LemmasParserWp.wp _ _ _ _ _ _ (intern_ _) _ => apply wp_intern; intros ?
    | |- LemmasParserWp.wp _ _ _ _ _ _ (name_ _) _ => apply wp_name; intros ?
    | |- LemmasParserWp.wp _ _ _ (_ :: _) _ _ tok_ _ => apply wp_tok; [lia|]
    | |- LemmasParserWp.wp _ _ _ _ _ _ scan_ _ => apply wp_scan; [lia| |intros ? ? ? ? ?]
    | |- LemmasParserWp.wp _ _ _ (_ :: _) _ _ unscan_ _ => first [apply wp_unscan_eof; [lia|] | apply wp_unscan_ne; [lia|first [assumption | discriminate | intros ->; discriminate]|]]
    | |- LemmasParserWp.wp _ _ _ _ _ _ (if ?b then _ else _) _ => destruct b eqn:?
    | |- LemmasParserWp.wp _ _ _ _ _ _ (match ?x with _ => _ end) _ => destruct x eqn:?
    | |- LemmasParserWp.wp _ _ _ _ _ _ (let _ := _ in _) _ => cbv zeta
    end; cbv beta iota.
  Ltac fin := try solve [match goal with H : forall _, _ |- _ => apply H; lia end].

  (** What a function does: tokens are read, at most two are put back. *)
  Definition reads {A} (d : nat) (g : act A) : Prop := forall past u m (Q : list tok -> nat -> nat -> A -> Prop),
    (u <= 2)%nat -> (m <= M)%nat -> (forall p u' m' a, (u' <= 2)%nat -> (m' + d <= m)%nat -> Q p u' m' a) -> wp past u m g Q.
  (** The same with fuel. *)
  Definition nreads {A} (n d : nat) (g : act A) : Prop := forall past u m (Q : list tok -> nat -> nat -> A -> Prop),
    (u <= 2)%nat -> (m <= M)%nat -> (m < n)%nat -> (forall p u' m' a, (u' <= 2)%nat -> (m' + d <= m)%nat -> Q p u' m' a) -> wp past u m g Q.

  Lemma wp_parseSchemaName : reads 1 parseSchemaName.
  Proof. intros past u m Q Hu Hm HQ. unfold parseSchemaName. repeat op; fin. Qed.

  Lemma wp_parseTableName : reads 1 parseTableName.
  Proof. intros past u m Q Hu Hm HQ. unfold parseTableName. repeat op; fin. Qed.

  Lemma wp_parseAlias b : reads 0 (parseAlias b).
  Proof. intros past u m Q Hu Hm HQ. unfold parseAlias. repeat op; fin.
  Qed.

  Ltac call L := (apply L; first [lia | intros ? ? ? ? ? ?]); cbv beta iota.
  Ltac inv := cbv beta iota; solve [repeat split; first [lia | exact Logic.I]].
  Ltac loop d :=
    match goal with |- LemmasParserWp.wp _ _ _ _ _ ?m (aloop _ _ _) _ =>
      apply (wp_loop bad C M (fun _ => True) (fun _ => True) d) with (m0 := m);
        [lia|intros ? ? ? ? _ ? ?; cbv beta iota|exact Logic.I|lia|lia|lia|intros ? ? ? ? ? ? _; cbv beta iota]
    end.

  Lemma wp_parseTableAlias : reads 1 parseTableAlias.
  Proof.
    intros past u m Q Hu Hm HQ. unfold parseTableAlias. repeat first [op | call wp_parseTableName | call wp_parseAlias]; fin.
  Qed.

  Lemma wp_parseColumns n : nreads n 1 (parseColumns n).
  Proof. intros past u m Q Hu Hm Hn HQ. unfold parseColumns. loop 1%nat; [repeat op; inv|]. apply HQ; lia. Qed.

  Lemma wp_parseColumnAliases n : nreads n 0 (parseColumnAliases n).
  Proof. intros past u m Q Hu Hm Hn HQ. unfold parseColumnAliases. repeat first [op | call wp_parseColumns]; fin. Qed.

  Lemma wp_parseDistinctColumns n : nreads n 1 (parseDistinctColumns n).
  Proof. intros past u m Q Hu Hm Hn HQ. unfold parseDistinctColumns. loop 1%nat; [repeat op; inv|]. apply HQ; lia. Qed.

  Lemma wp_parseKey n b : nreads n 1 (parseKey n b).
  Proof.
    intros past u m Q Hu Hm Hn HQ. unfold parseKey. repeat op. loop 1%nat; [repeat op; inv|]. apply HQ; lia.
  Qed.

  Lemma wp_parseRefAction : reads 1 parseRefAction.
  Proof.
    intros past u m Q Hu Hm HQ. unfold parseRefAction. repeat op; fin.
    all: exfalso; repeat match goal with H : In _ _ |- _ => cbn in H | H : (_ =? _) = false |- _ => apply Z.eqb_neq in H end; lia.
  Qed.

  Lemma wp_parseOnActions n fk : nreads n 0 (parseOnActions n fk).
  Proof.
    intros past u m Q Hu Hm Hn HQ. unfold parseOnActions. loop 0%nat; [|apply HQ; lia]. repeat first [op | call wp_parseRefAction]; inv.
  Qed.

  Lemma wp_parseForeignKey n cn : nreads n 1 (parseForeignKey n cn).
  Proof.
    intros past u m Q Hu Hm Hn HQ. unfold parseForeignKey.
    repeat first [op | call wp_parseColumns | call wp_parseTableName | call wp_parseOnActions]; fin.
  Qed.

  Lemma wp_parseColumnType : reads 1 parseColumnType.
  Proof. intros past u m Q Hu Hm HQ. unfold parseColumnType. repeat op; fin. Qed.

  Lemma wp_parseConstraintName : reads 0 parseConstraintName.
  Proof. intros past u m Q Hu Hm HQ. unfold parseConstraintName. repeat op; fin. Qed.

  Lemma wp_columnNames cols : reads 0 (columnNames cols).
  Proof.
    induction cols as [|c cols IH]; intros past u m Q Hu Hm HQ; cbn [columnNames]; repeat first [op | call IH]; fin.
  Qed.

  Lemma wp_makeKeyConstraintName cn key suffix : reads 0 (makeKeyConstraintName cn key suffix).
  Proof. intros past u m Q Hu Hm HQ. unfold makeKeyConstraintName. repeat first [op | call wp_columnNames]; fin. Qed.

  Lemma wp_ifNotExists : reads 0 ifNotExists.
  Proof. intros past u m Q Hu Hm HQ. unfold ifNotExists. repeat op; fin. Qed.
  Lemma wp_ifExists : reads 0 ifExists.
  Proof. intros past u m Q Hu Hm HQ. unfold ifExists. repeat op; fin. Qed.

  Lemma wp_optionalBinaryOp past u m (Q : list tok -> nat -> nat -> option (sqlop * bool) -> Prop) : (u <= 2)%nat -> (m <= M)%nat ->
    (forall t m' o, (m' < m)%nat -> Q (t :: past) (pred u) m' (Some o)) -> Q past (S (pred u)) m None -> wp past u m optionalBinaryOp Q.
  Proof.
    intros Hu Hm HQ HN. unfold optionalBinaryOp. repeat op; fin. all: subst; try discriminate; try (apply HQ; lia); exact HN.
  Qed.

  Lemma wp_parseShowFromTable : reads 1 parseShowFromTable.
  Proof. intros past u m Q Hu Hm HQ. unfold parseShowFromTable. repeat first [op | call wp_parseTableName]; fin. Qed.

  Lemma wp_parseShow : reads 1 parseShow.
  Proof.
    intros past u m Q Hu Hm HQ. unfold parseShow. repeat first [op | call wp_parseShowFromTable | call wp_parseSchemaName]; fin.
  Qed.

  Lemma adjust_some e : exists t, adjust e = ARet t /\ (t = Literal VNull -> e = Literal VNull).
  Proof.
    destruct (adjust_any (expr_size e) e) as (t & G & W & Z & A); [lia|]. exists t. unfold adjust. rewrite A by lia. split; [reflexivity|].
    intros ->. cbn [words] in W. clear - W. destruct e as [v|ids|nam args|op x|op l r|op eop e0 s]; cbn [words] in W; try discriminate W.
    - now injection W as <-.
    - destruct op; discriminate W.
    - exfalso. apply (f_equal (@length word)) in W. rewrite !app_length in W. cbn in W. assert (length (words l) > 0)%nat; [|lia].
      clear. induction l as [v|ids|nam args|op' x IHx|op' l' IHl r IHr|op' eop e0 s]; cbn [words]; rewrite ?app_length; cbn [length]; try lia. destruct op'; rewrite ?app_length; cbn; lia.
  Qed.

  Section Nested.
    Variable n : nat.
    Variable subExpr : unit -> act expr.
    Variable fromItem : unit -> act fromitem.

    (** What is known of the recursive calls. *)
    Definition expr_reads (n : nat) (g : act expr) : Prop := forall past u m (Q : list tok -> nat -> nat -> expr -> Prop),
      (u <= 3)%nat -> (m <= M)%nat -> (m < n)%nat ->
      (forall p u' m' e, (u' <= 2)%nat -> (m' + 1 <= m)%nat -> (e = Literal VNull -> p = KReserved kNULL :: past) -> Q p u' m' e) -> wp past u m g Q.
    Hypothesis HE : expr_reads n (subExpr tt).
    Hypothesis HF : nreads n 1 (fromItem tt).

    Lemma wp_parseExpr_ : expr_reads n (parseExpr_ subExpr).
    Proof.
      intros past u m Q Hu Hm Hn HQ. unfold parseExpr_. apply wp_bind. apply HE; [lia|lia|lia|]. intros p u' m' e H1 H2 H3.
      destruct (adjust_some e) as (t & -> & E). cbn. apply HQ; auto.
    Qed.

    Ltac callE L := apply L; [lia|lia|lia|intros ? ? ? ? ? ? ?]; cbv beta iota.

    Lemma wp_parseValues_ : nreads n 1 (parseValues_ n subExpr).
    Proof.
      intros past u m Q Hu Hm Hn HQ. unfold parseValues_. loop 1%nat; [|apply HQ; lia]. op. op. op. loop 1%nat; [op; callE wp_parseExpr_; repeat op; inv|]. repeat op; inv.
    Qed.

    Lemma wp_parseFromList_ : nreads n 1 (parseFromList_ n fromItem).
    Proof.
      intros past u m Q Hu Hm Hn HQ. unfold parseFromList_. op. call HF. loop 0%nat; [repeat first [op | call HF]; inv|]. apply HQ; lia.
    Qed.

    Lemma wp_parseResults_ : nreads n 1 (parseResults_ n subExpr).
    Proof.
      intros past u m Q Hu Hm Hn HQ. unfold parseResults_. loop 1%nat; [|apply HQ; lia]. cbv zeta.
      repeat first [op | callE wp_parseExpr_ | call wp_parseAlias]; subst; try discriminate; try inv.
    Qed.

    Lemma wp_parseGroupBy_ : nreads n 1 (parseGroupBy_ n subExpr).
    Proof.
      intros past u m Q Hu Hm Hn HQ. unfold parseGroupBy_. loop 1%nat; [|apply HQ; lia]. repeat first [op | callE wp_parseExpr_]; inv.
    Qed.

    Lemma wp_parseOrderBy_ : nreads n 1 (parseOrderBy_ n).
    Proof. intros past u m Q Hu Hm Hn HQ. unfold parseOrderBy_. loop 1%nat; [|apply HQ; lia]. repeat op; inv. Qed.

    Lemma wp_optionalExpr_ kw : nreads n 0 (optionalExpr_ subExpr kw).
    Proof. intros past u m Q Hu Hm Hn HQ. unfold optionalExpr_. repeat first [op | callE wp_parseExpr_]; fin. Qed.

    Lemma wp_resultsOrStar (star : bool) : nreads n (if star then 0 else 1) (if star then ARet None else let+ l := parseResults_ n subExpr in ARet (Some l)).
    Proof. intros past u m Q Hu Hm Hn HQ. destruct star; repeat first [op | call wp_parseResults_]; fin. Qed.
    Lemma wp_fromOrNone (b : bool) : nreads n 0 (if b then let+ f := parseFromList_ n fromItem in ARet (Some f) else ARet None).
    Proof. intros past u m Q Hu Hm Hn HQ. destruct b; repeat first [op | call wp_parseFromList_]; fin. Qed.
    Lemma wp_groupOrNone (b : bool) : nreads n 0 (if b then expectReserved [kBY] ;+ parseGroupBy_ n subExpr else ARet []).
    Proof. intros past u m Q Hu Hm Hn HQ. destruct b; repeat first [op | call wp_parseGroupBy_]; fin. Qed.
    Lemma wp_orderOrNone (b : bool) : nreads n 0 (if b then expectReserved [kBY] ;+ parseOrderBy_ n else ARet []).
    Proof. intros past u m Q Hu Hm Hn HQ. destruct b; repeat first [op | call wp_parseOrderBy_]; fin. Qed.
    Lemma wp_optional ids : reads 0 (optionalReserved ids).
    Proof. intros past u m Q Hu Hm HQ. op; fin. Qed.

    Lemma wp_parseSelect_ : nreads n 1 (parseSelect_ n subExpr fromItem).
    Proof.
      intros past u m Q Hu Hm Hn HQ. unfold parseSelect_.
      assert (E : forall star past u m, (u <= 2)%nat -> (m <= M)%nat -> (m < n)%nat ->
        (forall p u' m' a, (u' <= 2)%nat -> (m' + (if star : bool then 0 else 1) <= m)%nat -> Q p u' m' a) -> wp past u m
        (let+ results := (if star then ARet None else (let+ l := parseResults_ n subExpr in ARet (Some l))) in
    let+ b := optionalReserved [kFROM] in
    let+ from := (if b then (let+ f := parseFromList_ n fromItem in ARet (Some f)) else ARet None) in
    let+ cond := optionalExpr_ subExpr kWHERE in
    let+ b := optionalReserved [kGROUP] in
    let+ group := (if b then expectReserved [kBY] ;+ parseGroupBy_ n subExpr else ARet []) in
    let+ having := optionalExpr_ subExpr kHAVING in
    let+ b := optionalReserved [kORDER] in
    let+ order := (if b then expectReserved [kBY] ;+ parseOrderBy_ n else ARet []) in
    ARet (SSelect results from cond group having order)) Q).
      { intros. op. call wp_resultsOrStar. op. call wp_optional. op. call wp_fromOrNone. op. call wp_optionalExpr_. op. call wp_optional. op.
        call wp_groupOrNone. op. call wp_optionalExpr_. op. call wp_optional. op. call wp_orderOrNone. op. fin. }
      op. op; [apply (E true)|apply (E false)]; try lia; intros; apply HQ; lia.
    Qed.

    Lemma wp_optionalSubquery_ past u m (Q : list tok -> nat -> nat -> option stmt -> Prop) : (u <= 2)%nat -> (m <= M)%nat -> (m <= n)%nat ->
      (forall p u' m' a, (u' <= 2)%nat -> (m' + 1 <= m)%nat -> Q p u' m' (Some a)) -> Q past (S (pred u)) m None -> wp past u m (optionalSubquery_ n subExpr fromItem) Q.
    Proof.
      intros Hu Hm Hn HQ HN. unfold optionalSubquery_. repeat first [op | call wp_parseSelect_ | call wp_parseValues_ | call wp_parseShow | call wp_parseTableName]; fin. exact HN.
    Qed.

    Lemma wp_parseSubquery_ : nreads n 1 (parseSubquery_ n subExpr fromItem).
    Proof.
      intros past u m Q Hu Hm Hn HQ. unfold parseSubquery_. op. op. op. apply wp_optionalSubquery_; [lia|lia|lia| |]; intros; repeat op; fin.
    Qed.

    Lemma wp_parseCall_ id past u m (Q : list tok -> nat -> nat -> expr -> Prop) : (u <= 2)%nat -> (m <= M)%nat -> (m < n)%nat ->
      (forall p u' m' e, (u' <= 2)%nat -> (m' + 1 <= m)%nat -> e <> Literal VNull -> Q p u' m' e) -> wp past u m (parseCall_ n subExpr id) Q.
    Proof.
      intros Hu Hm Hn HQ. unfold parseCall_. op. op; [op; apply HQ; [lia|lia|discriminate]|].
      repeat op; try (apply HQ; [lia|lia|discriminate]). all: loop 1%nat; [repeat first [op | callE HE]; inv|]; op; apply HQ; [lia|lia|discriminate].
    Qed.

    Lemma wp_parseRef_ past t u m (Q : list tok -> nat -> nat -> expr -> Prop) : (u <= 2)%nat -> (m <= M)%nat -> (m < n)%nat ->
      (forall p u' m' e, (u' <= 2)%nat -> (m' <= m)%nat -> e <> Literal VNull -> Q p u' m' e) -> wp (t :: past) u m (parseRef_ n) Q.
    Proof.
      intros Hu Hm Hn HQ. unfold parseRef_. op. op. op. loop 0%nat; [repeat op; inv|]. op. apply HQ; [lia|lia|discriminate].
    Qed.

    Lemma wp_parseOperand_ past u m (Q : list tok -> nat -> nat -> expr -> Prop) : (u <= 3)%nat -> (m <= M)%nat -> (m <= n)%nat ->
      (forall p u' m' e, (u' <= 2)%nat -> (m' + 1 <= m)%nat -> (e = Literal VNull -> p = KReserved kNULL :: past) -> Q p u' m' e) ->
      wp past u m (parseOperand_ n subExpr fromItem) Q.
    Proof.
      intros Hu Hm Hn HQ. unfold parseOperand_. op. op.
      - cbn [rune_of]. repeat op; try discriminate.
      - subst. destruct t; repeat first [op | callE HE | call wp_parseSubquery_ | callE wp_parseCall_ | (apply wp_parseRef_; [lia|lia|lia|intros ? ? ? ? ? ? ?]) | (apply wp_optionalSubquery_; [lia|lia|lia|intros ? ? ? ? ? ?|]) ];
          try discriminate; try (apply HQ; [lia|lia|try discriminate; try congruence]).
        repeat match goal with H : (_ =? _) = true |- _ => apply Z.eqb_eq in H end. congruence.
    Qed.

    Lemma wp_parsePostfix_ e past u m (Q : list tok -> nat -> nat -> expr -> Prop) : (u <= 2)%nat -> (m <= M)%nat -> (m <= n)%nat ->
      (forall p u' m' e', (u' <= 2)%nat -> (m' <= m)%nat -> (e' = Literal VNull -> p = past /\ e = Literal VNull) -> Q p u' m' e') ->
      wp past u m (parsePostfix_ n subExpr fromItem e) Q.
    Proof.
      intros Hu Hm Hn HQ. unfold parsePostfix_. repeat first [op | call wp_parseSubquery_]; apply HQ; try lia; try discriminate; auto.
    Qed.

    Lemma wp_subExprBody past u m (Q : list tok -> nat -> nat -> expr -> Prop) : (u <= 3)%nat -> (m <= M)%nat -> (m <= n)%nat ->
      (forall p u' m' e, (u' <= 2)%nat -> (m' + 1 <= m)%nat -> (e = Literal VNull -> p = KReserved kNULL :: past) -> Q p u' m' e) ->
      wp past u m (subExprBody n subExpr fromItem) Q.
    Proof.
      intros Hu Hm Hn HQ. unfold subExprBody. op. apply wp_parseOperand_; [lia|lia|lia|]. intros p u' m' e H1 H2 H3. op. apply wp_optionalBinaryOp; [lia|lia| |].
      - intros t m2 [op' bop] H4. cbv beta iota. repeat first [op | callE HE | call wp_parseSubquery_]; apply HQ; try lia; discriminate.
      - cbv beta iota. apply wp_parsePostfix_; [lia|lia|lia|]. intros p2 u2 m2 e2 H4 H5 H6. apply HQ; [lia|lia|]. intros N. destruct (H6 N) as [-> N2]. now apply H3.
    Qed.

    Lemma wp_parseFromStmt_ s : nreads n 1 (parseFromStmt_ n s).
    Proof. intros past u m Q Hu Hm Hn HQ. unfold parseFromStmt_. repeat first [op | call wp_parseAlias | call wp_parseColumnAliases]; fin. Qed.

    Lemma wp_parseJoinType_ past u m (Q : list tok -> nat -> nat -> option jointype -> Prop) : (u <= 2)%nat -> (m <= M)%nat ->
      (forall p u' m' a, (u' <= 2)%nat -> (m' + 1 <= m)%nat -> Q p u' m' (Some a)) -> (forall u', (u' <= 2)%nat -> Q past u' m None) -> wp past u m parseJoinType_ Q.
    Proof. intros Hu Hm HQ HN. unfold parseJoinType_. repeat op; fin. Qed.

    Lemma wp_fromItemBody : nreads (S n) 1 (fromItemBody n subExpr fromItem).
    Proof.
      intros past u m Q Hu Hm Hn HQ. unfold fromItemBody.
      assert (E : forall fi past u m, (u <= 2)%nat -> (m <= M)%nat -> (m < n)%nat ->
        (forall p u' m' a, (u' <= 2)%nat -> (m' <= m)%nat -> Q p u' m' a) -> wp past u m
        (let+ jt := parseJoinType_ in
    match jt with
    | None => ARet fi
    | Some jt =>
        let+ r := fromItem tt in
        let+ b := optionalReserved [kON] in
        let+ '(on, cols) :=
          (if b then (let+ e := parseExpr_ subExpr in ARet (Some e, []))
           else
             let+ b := optionalReserved [kUSING] in
             if b then
               expectTokens [tLParen] ;+
               let+ cols := parseDistinctColumns n in ARet (None, cols)
             else ARet (None, [])) in
        match jt, on, cols with
        | CrossJoin, None, [] => ARet (FromJoin fi r jt None [])
        | CrossJoin, _, _ => AError
        | _, None, [] => AError
        | _, _, _ => ARet (FromJoin fi r jt on cols)
        end
    end) Q).
      { clear past u m Hu Hm Hn HQ. intros fi past u m Hu Hm Hn HQ. op. apply wp_parseJoinType_; [lia|lia| |intros; apply HQ; lia].
        intros. cbv beta iota. repeat first [op | call HF | callE wp_parseExpr_ | call wp_parseDistinctColumns]; fin. }
      op. op.
      - op. op. apply wp_optionalSubquery_; [lia|lia|lia| |].
        + intros. cbv beta iota. call wp_parseFromStmt_. apply E; try lia. intros; apply HQ; lia.
        + cbv beta iota. op. call wp_parseFromList_. op. op. op. apply E; try lia. intros; apply HQ; lia.
      - op. call wp_parseTableAlias. apply E; try lia. intros; apply HQ; lia.
    Qed.
  End Nested.

  Lemma wp_nested n : expr_reads n (parseSubExpr n tt) /\ nreads n 1 (parseFromItem n tt).
  Proof.
    induction n as [|n [IH1 IH2]].
    - split; intros past u m Q Hu Hm Hn; lia.
    - split.
      + intros past u m Q Hu Hm Hn HQ. cbn [parseSubExpr]. apply wp_subExprBody; try assumption. lia.
      + cbn [parseFromItem]. now apply wp_fromItemBody.
  Qed.

  Lemma wp_parseExpr n : expr_reads n (parseExpr n).
  Proof. apply wp_parseExpr_, wp_nested. Qed.
  Lemma wp_parseSelect n : nreads n 1 (parseSelect n).
  Proof. apply wp_parseSelect_; apply wp_nested. Qed.
  Lemma wp_parseValues n : nreads n 1 (parseValues n).
  Proof. apply wp_parseValues_, wp_nested. Qed.

  Lemma wp_post {A} (g : act A) (P : A -> Prop) : post g P -> forall past u m (Q : list tok -> nat -> nat -> A -> Prop), wp past u m g (fun p u m a => P a -> Q p u m a) -> wp past u m g Q.
  Proof.
    induction g as [a| | | |k IH|k IH|k IH|s k IH|i k IH|l k IH|k IH]; cbn [post]; intros HP past u m Q; cbn [LemmasParserWp.wp]; auto.
    - intros (H1 & H2 & H3). auto.
    - intros [H1 H2]. split; [exact H1|]. destruct past; auto.
    - intros [H1 H2]. split; [exact H1|]. destruct past; auto.
  Qed.

  Ltac callE L := apply L; [lia|lia|lia|intros ? ? ? ? ? ? ?]; cbv beta iota.
  Ltac calls := first [op | callE wp_parseExpr | call wp_parseTableName | call wp_parseColumns | call wp_parseDistinctColumns | call wp_parseKey | call wp_parseForeignKey | call wp_parseOnActions
    | call wp_parseColumnType | call wp_parseConstraintName | call wp_makeKeyConstraintName | call wp_ifNotExists | call wp_ifExists | call wp_parseSchemaName | call wp_parseSelect | call wp_parseValues | call wp_parseShow].

  Lemma wp_checkKeys nkey csts : key_ok nkey -> Forall (fun c => length (ik_reverse (con_key c)) = length (ik_columns (con_key c))) csts -> reads 0 (checkKeys nkey csts).
  Proof.
    intros (K1 & K2 & K3) F. induction F as [|c csts H F IH]; intros past u m Q Hu Hm HQ; cbn [checkKeys]; [op; fin|].
    destruct (keyEqual_spec nkey (con_key c) K3 H) as (b & -> & _). destruct b; [op|now apply IH].
  Qed.

  Lemma wp_addKeyConstraint s ct cn nkey t d : key_ok nkey -> Forall (constraint_ok t d) (cb_csts s) -> reads 0 (addKeyConstraint s ct cn nkey).
  Proof.
    intros K F past u m Q Hu Hm HQ. unfold addKeyConstraint. op; op. apply wp_checkKeys; [exact K|eapply Forall_impl; [|exact F]; apply lengths_key|lia|lia|]. intros. op. fin.
  Qed.

  Lemma wp_addColumnConstraint s ct cn num : reads 0 (addColumnConstraint s ct cn num).
  Proof. intros past u m Q Hu Hm HQ. unfold addColumnConstraint. repeat op; fin. Qed.

  Lemma wp_columnName (b : bool) nam (sfx : bytes) (cn : Z) : reads 0 (if b then let+ s := name_ nam in intern_ (s ++ sfx) else ARet cn).
  Proof. intros past u m Q Hu Hm HQ. repeat op; fin. Qed.

  Lemma columnKey_ok nam : key_ok (columnKey nam).
  Proof. unfold key_ok. cbn. split; [discriminate|]. split; [constructor; [auto|constructor]|reflexivity]. Qed.

  Lemma wp_columnConstraint n nam s ct d : tinv (add_type s ct d) -> forall past u m (Q : list tok -> nat -> nat -> _ -> Prop),
    (u <= 2)%nat -> (m <= M)%nat -> (m <= n)%nat ->
    (forall p u' m' a, (u' <= 2)%nat -> (m' + 1 <= m)%nat -> Q p u' m' (inl a)) ->
    (forall p u' m' a, (u' <= 2)%nat -> (m' <= m)%nat -> Q p u' m' (inr a)) ->
    wp past u m (columnConstraint n nam (s, ct, d)) Q.
  Proof.
    intros I past u m Q Hu Hm Hn H1 H2. unfold columnConstraint.
    assert (F : Forall (constraint_ok (cb_types s ++ [ct]) (cb_defaults s ++ [d])) (cb_csts s)) by apply I.
    repeat first [calls | call wp_addColumnConstraint | call wp_columnName | (apply (wp_addKeyConstraint _ _ _ _ _ _ (columnKey_ok nam) F); [lia|lia|intros ? ? ? ? ? ?])]; first [apply H1; lia | apply H2; lia].
  Qed.

  Lemma wp_parseColumn n s : tinv s -> nreads n 1 (parseColumn n s).
  Proof.
    intros I past u m Q Hu Hm Hn HQ. unfold parseColumn. op. apply wp_expectIdentifier; [lia|lia|]. intros nam m0 L0. cbv beta iota. destruct (mem nam (cb_cols s)) eqn:E; [op|]. cbv zeta. op. call wp_parseColumnType. op.
    match goal with |- LemmasParserWp.wp _ _ _ _ _ ?m (aloop _ _ _) _ =>
      apply (wp_loop bad C M (fun '(s, ct, d) => tinv (add_type s ct d)) (fun _ => True) 0) with (m0 := m); [lia| | |lia|lia|lia|] end.
    - intros [[s' ct'] d'] p1 u1 m1 I1 U1 M1. eapply wp_post; [apply (post_columnConstraint n nam s' ct' d' I1)|]. apply wp_columnConstraint; [exact I1|lia|lia|lia| |].
      + intros p2 u2 m2 [[s2 ct2] d2] U2 M2 P2. split; [lia|]. split; [lia|exact P2].
      + intros p2 u2 m2 [[s2 ct2] d2] U2 M2 P2. split; [lia|]. split; [lia|exact Logic.I].
    - now apply tinv_new.
    - intros p2 u2 m2 [[s2 ct2] d2] U2 M2 _. op. apply HQ; lia.
  Qed.

  Lemma wp_createDetail n s : tinv s -> nreads n 1 (createDetail n s).
  Proof.
    intros I past u m Q Hu Hm Hn HQ. unfold createDetail.
    assert (F : Forall (constraint_ok (cb_types s) (cb_defaults s)) (cb_csts s)) by apply I. op. call wp_parseConstraintName.
    assert (Key : forall suffix kt past u m, (u <= 2)%nat -> (m <= M)%nat -> (m < n)%nat -> (forall p u' m' a, (u' <= 2)%nat -> (m' + 1 <= m)%nat -> Q p u' m' a) ->
      wp past u m (let+ key := parseKey n true in let+ cn := makeKeyConstraintName a key suffix in addKeyConstraint s kt cn key) Q).
    { intros. op. eapply wp_post; [apply post_parseKey|]. call wp_parseKey. intros [K1 K2]. op. call wp_makeKeyConstraintName.
      apply (wp_addKeyConstraint _ _ _ _ _ _ K1 F); [lia|lia|]. intros. fin. }
    op. op. { op. op. apply Key; try lia. intros; apply HQ; lia. }
    op. op. { apply Key; try lia. intros; apply HQ; lia. }
    repeat first [calls | (apply (wp_parseColumn _ _ I); [lia|lia|lia|intros ? ? ? ? ? ?])]; fin.
  Qed.

  Lemma wp_parseCreateDetails n : nreads n 1 (parseCreateDetails n).
  Proof.
    intros past u m Q Hu Hm Hn HQ. unfold parseCreateDetails. apply (wp_loop bad C M tinv (fun _ => True) 1) with (m0 := m); [lia| |apply tinv_no|lia|lia|lia|].
    - intros s p1 u1 m1 I1 U1 M1. op. eapply wp_post; [apply post_createDetail, I1|]. apply (wp_createDetail _ _ I1); [lia|lia|lia|]. intros p2 u2 m2 s2 U2 M2 I2. cbv beta iota.
      repeat op; (split; [lia|split; [lia|first [exact I2 | exact Logic.I]]]).
    - intros. apply HQ; lia.
  Qed.

  Lemma wp_parseCreateTable n : nreads n 1 (parseCreateTable n).
  Proof. intros past u m Q Hu Hm Hn HQ. unfold parseCreateTable. repeat first [calls | call wp_parseCreateDetails]; fin. Qed.

  Lemma wp_alterAction n : nreads n 1 (alterAction n).
  Proof. intros past u m Q Hu Hm Hn HQ. unfold alterAction. repeat calls; fin. Qed.

  Lemma wp_parseAlterTable n : nreads n 1 (parseAlterTable n).
  Proof. intros past u m Q Hu Hm Hn HQ. unfold parseAlterTable. op. call wp_parseTableName. loop 1%nat; [repeat first [op | call wp_alterAction]; inv|]. apply HQ; lia. Qed.

  Lemma wp_parseCreateIndex n b : nreads n 1 (parseCreateIndex n b).
  Proof. intros past u m Q Hu Hm Hn HQ. unfold parseCreateIndex. repeat calls; fin. Qed.

  Lemma wp_optionalExpr n kw : nreads n 0 (optionalExpr_ (parseSubExpr n) kw).
  Proof. apply wp_optionalExpr_. apply wp_nested. Qed.

  Lemma wp_parseDelete n : nreads n 1 (parseDelete n).
  Proof. intros past u m Q Hu Hm Hn HQ. unfold parseDelete. repeat first [calls | call wp_optionalExpr]; fin. Qed.

  Lemma wp_parseDropTable n : nreads n 1 (parseDropTable n).
  Proof.
    intros past u m Q Hu Hm Hn HQ. unfold parseDropTable. op. call wp_ifExists. op. call wp_parseTableName. op. loop 0%nat; [repeat calls; inv|]. repeat op; fin.
  Qed.

  Lemma wp_parseDropIndex : reads 1 parseDropIndex.
  Proof. intros past u m Q Hu Hm HQ. unfold parseDropIndex. repeat calls; fin. Qed.

  Lemma wp_exprOrDefault n : nreads n 1 (exprOrDefault n).
  Proof.
    intros past u m Q Hu Hm Hn HQ. unfold exprOrDefault. op. op.
    - cbn [is_reserved]. repeat calls; fin.
    - subst. repeat calls; fin.
  Qed.

  Lemma wp_parseInsert n : nreads n 1 (parseInsert n).
  Proof.
    intros past u m Q Hu Hm Hn HQ. unfold parseInsert. op. call wp_parseTableName. op.
    op; (op; first [call wp_parseDistinctColumns | op]; op; op; loop 1%nat; [op; op; op; loop 1%nat; [repeat first [op | call wp_exprOrDefault]; inv|]; repeat op; inv|apply HQ; lia]).
  Qed.

  Lemma wp_reader {A} (k : Z -> act A) past u m Q : (forall z, wp past u m (k z) Q) -> wp past u m (AReader k) Q.
  Proof. exact (fun H => H). Qed.

  Lemma wp_parseCopy n : nreads n 1 (parseCopy n).
  Proof. intros past u m Q Hu Hm Hn HQ. unfold parseCopy. repeat first [calls | (apply wp_reader; intros ?)]; fin. Qed.

  Lemma wp_parseUpdate n : nreads n 1 (parseUpdate n).
  Proof.
    intros past u m Q Hu Hm Hn HQ. unfold parseUpdate. op. call wp_parseTableName. op. op. op. loop 1%nat; [repeat first [op | call wp_exprOrDefault]; inv|]. repeat first [op | call wp_optionalExpr]; fin.
  Qed.

  Context {X : FloatLib} {P : PrintLib}.
  Lemma wp_bytes l past u m (Q : list tok -> nat -> nat -> bytes -> Prop) : (forall b, Q past u m b) -> wp past u m (ABytes l ARet) Q.
  Proof. exact (fun H => H). Qed.

  Lemma wp_parseOptions n : nreads n 0 (parseOptions n).
  Proof.
    intros past u m Q Hu Hm Hn HQ. unfold parseOptions. loop 0%nat; [|apply HQ; lia]. op. op.
    - repeat op; inv.
    - subst. repeat first [op | (apply wp_bytes; intros ?)]; subst; try discriminate; inv.
  Qed.

  Lemma wp_parseCreateDatabase n : nreads n 1 (parseCreateDatabase n).
  Proof. intros past u m Q Hu Hm Hn HQ. unfold parseCreateDatabase. repeat first [op | call wp_parseOptions]; fin. Qed.
  Lemma wp_parseDropDatabase : reads 1 parseDropDatabase.
  Proof. intros past u m Q Hu Hm HQ. unfold parseDropDatabase. repeat calls; fin. Qed.
  Lemma wp_parseCreateSchema : reads 1 parseCreateSchema.
  Proof. intros past u m Q Hu Hm HQ. unfold parseCreateSchema. repeat calls; fin. Qed.
  Lemma wp_parseDropSchema : reads 1 parseDropSchema.
  Proof. intros past u m Q Hu Hm HQ. unfold parseDropSchema. repeat calls; fin. Qed.
  Lemma wp_parseExplain n : nreads n 1 (parseExplain n).
  Proof. intros past u m Q Hu Hm Hn HQ. unfold parseExplain. repeat calls; fin. Qed.

  Hypothesis HN : forall past, set_null past -> C past.

  Lemma wp_literalText e past u m (Q : list tok -> nat -> nat -> bytes -> Prop) : (u <= 2)%nat -> (m <= M)%nat ->
    (e = Literal VNull -> C past) -> (forall b, Q past u m b) -> wp past u m (literalText e) Q.
  Proof.
    intros Hu Hm He HQ. unfold literalText. destruct e as [v| | | | |]; [|op|op|op|op|op]. destruct v; cbn; auto.
  Qed.

  Lemma wp_parseUse n q u m (Q : list tok -> nat -> nat -> stmt -> Prop) :
    (u <= 2)%nat -> (m <= M)%nat -> (m < n)%nat -> (forall p u' m' a, (u' <= 2)%nat -> (m' + 1 <= m)%nat -> Q p u' m' a) -> wp (KReserved kUSE :: q) u m (parseUse n) Q.
  Proof.
    intros Hu Hm Hn HQ. unfold parseUse. op. callE wp_parseExpr. op. apply wp_literalText; [lia|lia| |].
    - intros ->. apply HN. left. exists q. auto.
    - intros. op. fin.
  Qed.

  Lemma wp_parseSet n q u m (Q : list tok -> nat -> nat -> stmt -> Prop) :
    (u <= 2)%nat -> (m <= M)%nat -> (m < n)%nat -> (forall p u' m' a, (u' <= 2)%nat -> (m' + 1 <= m)%nat -> Q p u' m' a) -> wp (KReserved kSET :: q) u m (parseSet n) Q.
  Proof.
    intros Hu Hm Hn HQ. unfold parseSet.
    assert (E : forall var v u m, (u <= 2)%nat -> (m <= M)%nat -> (m < n)%nat -> (var = KReserved kDATABASE \/ var = KReserved kSCHEMA \/ exists id, var = KIdent id) ->
      (forall p u' m' a, (u' <= 2)%nat -> (m' + 1 <= m)%nat -> Q p u' m' a) -> wp (var :: KReserved kSET :: q) u m
      (let+ eq := maybeToken tEqual in
    (if eq then ARet tt else expectReserved [kTO] ;+ ARet tt) ;+
    let+ e := parseExpr n in
    let+ w := literalText e in
    ARet (SSet v w)) Q).
    { clear u m Hu Hm Hn HQ. intros var v u m Hu Hm Hn Hv HQ. op. op.
      - op. op. op. callE wp_parseExpr. op. apply wp_literalText; [lia|lia| |intros; op; fin].
        intros ->. apply HN. right. exists t, var, q. split; [auto|]. split; [|exact Hv]. left. destruct t; cbn in H; try discriminate. congruence.
      - op. op. op. op. op. callE wp_parseExpr. op. apply wp_literalText; [lia|lia| |intros; op; fin].
        intros ->. apply HN. right. exists (KReserved id), var, q. split; [auto|]. split; [|exact Hv]. right. destruct H as [<-|[]]. reflexivity. }
    op. op.
    - op. op. apply E; try lia; [|intros; apply HQ; lia]. left. destruct H as [<-|[]]. reflexivity.
    - op. op. op; [op|].
      + apply E; try lia; [|intros; apply HQ; lia]. right. left. destruct H as [<-|[]]. reflexivity.
      + op. apply E; try lia; [|intros; apply HQ; lia]. right. right. eauto.
  Qed.

  Lemma wp_parseStmtOf n kw q u m (Q : list tok -> nat -> nat -> option stmt -> Prop) :
    (u <= 2)%nat -> (m <= M)%nat -> (m < n)%nat -> (forall p u' m' a, (u' <= 2)%nat -> (m' <= m)%nat -> Q p u' m' a) -> wp (KReserved kw :: q) u m (parseStmtOf n kw) Q.
  Proof.
    intros Hu Hm Hn HQ. unfold parseStmtOf. cbv zeta.
    repeat match goal with |- LemmasParserWp.wp _ _ _ _ _ _ (if ?b =? ?c then _ else _) _ => destruct (Z.eqb_spec b c); [subst b|] end.
    all: repeat first [op | lazymatch goal with
      | |- LemmasParserWp.wp _ _ _ _ _ _ (parseAlterTable _) _ => call wp_parseAlterTable
      | |- LemmasParserWp.wp _ _ _ _ _ _ (parseCopy _) _ => call wp_parseCopy
      | |- LemmasParserWp.wp _ _ _ _ _ _ (parseCreateDatabase _) _ => call wp_parseCreateDatabase
      | |- LemmasParserWp.wp _ _ _ _ _ _ (parseCreateIndex _ _) _ => call wp_parseCreateIndex
      | |- LemmasParserWp.wp _ _ _ _ _ _ (parseCreateSchema) _ => call wp_parseCreateSchema
      | |- LemmasParserWp.wp _ _ _ _ _ _ (parseCreateTable _) _ => call wp_parseCreateTable
      | |- LemmasParserWp.wp _ _ _ _ _ _ (parseDelete _) _ => call wp_parseDelete
      | |- LemmasParserWp.wp _ _ _ _ _ _ (parseDropDatabase) _ => call wp_parseDropDatabase
      | |- LemmasParserWp.wp _ _ _ _ _ _ (parseDropIndex) _ => call wp_parseDropIndex
      | |- LemmasParserWp.wp _ _ _ _ _ _ (parseDropSchema) _ => call wp_parseDropSchema
      | |- LemmasParserWp.wp _ _ _ _ _ _ (parseDropTable _) _ => call wp_parseDropTable
      | |- LemmasParserWp.wp _ _ _ _ _ _ (parseExplain _) _ => call wp_parseExplain
      | |- LemmasParserWp.wp _ _ _ _ _ _ (parseInsert _) _ => call wp_parseInsert
      | |- LemmasParserWp.wp _ _ _ _ _ _ (parseSelect _) _ => call wp_parseSelect
      | |- LemmasParserWp.wp _ _ _ _ _ _ (parseSet _) _ => call wp_parseSet
      | |- LemmasParserWp.wp _ _ _ _ _ _ (parseShow) _ => call wp_parseShow
      | |- LemmasParserWp.wp _ _ _ _ _ _ (parseUpdate _) _ => call wp_parseUpdate
      | |- LemmasParserWp.wp _ _ _ _ _ _ (parseUse _) _ => call wp_parseUse
      | |- LemmasParserWp.wp _ _ _ _ _ _ (parseValues _) _ => call wp_parseValues
      end]; apply HQ; lia.
  Qed.

  (** A statement behind its first keyword, and a whole one. *)
  Lemma wp_rest n kw q u m (Q : list tok -> nat -> nat -> option stmt -> Prop) :
    (u <= 2)%nat -> (m <= M)%nat -> (m < n)%nat -> (forall p u' m' a, (u' <= 2)%nat -> (m' <= m)%nat -> Q p u' m' a) ->
    wp (KReserved kw :: q) u m (let+ s := parseStmtOf n kw in expectEndOfStatement ;+ ARet s) Q.
  Proof.
    intros Hu Hm Hn HQ. op. apply wp_parseStmtOf; [lia|lia|lia|]. intros. cbv beta. op. apply wp_expectEnd; [lia|lia| |]; intros; op; apply HQ; lia.
  Qed.

  Lemma wp_parseWhole n past u m (Q : list tok -> nat -> nat -> option stmt -> Prop) :
    (u <= 2)%nat -> (m <= M)%nat -> (m < n)%nat -> (forall p u' m' a, (u' <= 2)%nat -> (m' <= m)%nat -> Q p u' m' a) ->
    wp past u m (parseWhole n) Q.
  Proof.
    intros Hu Hm Hn HQ. unfold parseWhole, parseStmt. op. op. op.
    - op. op. apply wp_expectEnd; [lia|lia| |]; intros; op; apply HQ; lia.
    - op. op. apply wp_parseStmtOf; [lia|lia|lia|]. intros. cbv beta. op. apply wp_expectEnd; [lia|lia| |]; intros; op; apply HQ; lia.
  Qed.
End Safe.
