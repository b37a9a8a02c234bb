(** What cannot be written as text. *)

From Verif Require Import ModelPrint SpecBreaks SpecExpr SpecAccepts LemmasBase LemmasAdjust LemmasRegroup LemmasSoundDeref LemmasSoundLink LemmasSoundGrammar SpecParser SpecTokens.
From Coq Require Import List Lia.

(** ** The first panic *)

Definition pan (p : printed) : option bytes := match p with PPanic w => Some w | PText _ => None end.
Fixpoint firstp (l : list (option bytes)) : option bytes :=
  match l with [] => None | Some w :: _ => Some w | None :: l' => firstp l' end.

Lemma firstp_app a b : firstp (a ++ b) = match firstp a with Some w => Some w | None => firstp b end.
Proof. induction a as [|[w|] a IH]; [reflexivity..|exact IH]. Qed.
Lemma pan_writes l : pan (writes l) = firstp (map pan l).
Proof.
  induction l as [|[s|w] l IH]; [reflexivity| |reflexivity]. cbn [writes map pan firstp]. rewrite <- IH. now destruct (writes l).
Qed.
Lemma pan_commas l : pan (commas l) = firstp (map pan l).
Proof.
  induction l as [|p [|q l] IH]; [reflexivity| |].
  - cbn. now destruct p.
  - change (commas (p :: q :: l)) with (writes [p; PText (str ", "); commas (q :: l)]). rewrite pan_writes.
    cbn [map pan firstp]. rewrite IH. cbn [map firstp]. destruct (pan p); [reflexivity|]. destruct (pan q); [reflexivity|]. now destruct (firstp (map pan l)).
Qed.
Lemma firstp_none l : (forall o, In o l -> o = None) -> firstp l = None.
Proof. induction l as [|o l IH]; [reflexivity|]. intros H. cbn. rewrite (H o) by now left. apply IH. intros; apply H. now right. Qed.
Lemma pan_texts {A} (f : A -> bytes) l : firstp (map pan (map (fun x => PText (f x)) l)) = None.
Proof. apply firstp_none. intros o H. apply in_map_iff in H. destruct H as (p & <- & H). apply in_map_iff in H. now destruct H as (x & <- & _). Qed.
Lemma pan_ids T l : pan (idCommas T l) = None.
Proof. unfold idCommas. rewrite pan_commas. apply pan_texts. Qed.
Lemma pan_rows b rows : pan (rowParts b rows) = firstp (map pan (concat rows)).
Proof.
  revert b. induction rows as [|r rows IH]; intros b; [reflexivity|]. cbn [rowParts concat]. rewrite pan_writes, map_app, firstp_app.
  cbn [map pan firstp]. rewrite pan_commas, IH. destruct (firstp (map pan r)); [reflexivity|]. now destruct (firstp (map pan (concat rows))).
Qed.
Lemma firstp_some (o : option bytes) : match o with Some w => Some w | None => None end = o.
Proof. now destruct o. Qed.

Section Breaks.
  Context {P : PrintLib}.
  Variable T : idtable.
  (** What [String] writes, one level at a time. *)
  Lemma expr_call nam args : exprString T (SExpr nam args) =
    writes [PText (idString T nam ++ str "("); commas (map (exprString T) args); PText (str ")")].
  Proof. reflexivity. Qed.
  Lemma stmt_create tn cols types defaults ifNotExists csts fks : stmtString T (SCreateTable tn cols types defaults ifNotExists csts fks) =
    writes
          [PText (str "CREATE TABLE" ++ (if ifNotExists then str " IF NOT EXISTS" else []) ++ str " " ++ tableString T tn ++ str " (");
           commas (columnParts T 0 (zlen cols) (zlen defaults) cols types
                     (map (fun d => match d with Some e => Some (fmtS (exprString T e)) | None => None end) defaults));
           PText (flat_map (fun c =>
                    constraintString T (con_type c) (con_name c) (con_key c)
                      match con_check c with Some e => fmtS (exprString T e) | None => nilText end) csts);
           writes (map (fun fk => writes [PText (str ", "); fkString T fk]) fks);
           PText (str ")")].
  Proof. reflexivity. Qed.
  Lemma stmt_insert tn cols rows : stmtString T (SInsertValues tn cols rows) =
    writes
          [PText (str "INSERT INTO " ++ tableString T tn ++ str " ");
           match cols with [] => PText [] | _ => writes [PText (str "("); idCommas T cols; PText (str ") ")] end;
           PText (str "VALUES");
           rowParts true (map (map (fun v => match v with Some e => exprString T e | None => PPanic nil_interface end)) rows)].
  Proof. reflexivity. Qed.
  Lemma stmt_update tn updates cond : stmtString T (SUpdate tn updates cond) =
    writes
          [PText (str "UPDATE " ++ tableString T tn ++ str " SET ");
           commas (map (fun u : Z * option expr => PText (idString T (fst u) ++ str " = " ++
                     match snd u with Some e => fmtS (exprString T e) | None => nilText end)) updates);
           PText match cond with Some e => str " WHERE " ++ fmtS (exprString T e) | None => [] end].
  Proof. reflexivity. Qed.
  Lemma stmt_values rows : stmtString T (SValues rows) =
    writes [PText (str "VALUES"); rowParts true (map (map (exprString T)) rows)].
  Proof. reflexivity. Qed.
  Lemma stmt_select results from cond groupBy having orderBy : stmtString T (SSelect results from cond groupBy having orderBy) =
    writes
          [PText (str "SELECT ");
           match results with
           | None => PText (str "*")
           | Some l =>
               commas (map (fun r =>
                 match r with
                 | TableResult t => PText (idString T t ++ str ".*")
                 | ExprResult e alias =>
                     if alias =? 0 then exprString T e
                     else PText (fmtS (exprString T e) ++ str " AS " ++ idString T alias)
                 end) l)
           end;
           PText (str " FROM " ++ match from with Some f => fmtS (fromString T f) | None => nilText end);
           PText match cond with Some e => str " WHERE " ++ fmtS (exprString T e) | None => [] end;
           match groupBy with
           | [] => PText []
           | _ =>
               writes
                 [PText (str " GROUP BY ");
                  commas (map (exprString T) groupBy);
                  PText match having with Some e => str " HAVING " ++ fmtS (exprString T e) | None => [] end]
           end;
           match orderBy with
           | [] => PText []
           | _ =>
               writes
                 [PText (str " ORDER BY ");
                  commas (map (fun o : expr * bool =>
                    writes [exprString T (fst o); PText (if snd o then str " DESC" else str " ASC")]) orderBy)]
           end].
  Proof. reflexivity. Qed.
  Lemma from_stmt s alias cols : fromString T (FromStmt s alias cols) =
    writes
          [PText (str "(" ++ fmtS (stmtString T s) ++ str ") AS " ++ idString T alias);
           match cols with [] => PText [] | _ => writes [PText (str " ("); idCommas T cols; PText (str ")")] end].
  Proof. reflexivity. Qed.
  Lemma from_join l r jt cond cols : fromString T (FromJoin l r jt cond cols) =
    writes
          [PText (str "(" ++ fmtS (fromString T l) ++ str " " ++ jointypeString jt ++ str " " ++ fmtS (fromString T r));
           match cond with Some e => writes [PText (str " ON "); exprString T e] | None => PText [] end;
           match cols with [] => PText [] | _ => writes [PText (str " USING ("); idCommas T cols; PText (str ")")] end;
           PText (str ")")].
  Proof. reflexivity. Qed.

  Notation text := (part_text T).
  Notation breaks := SpecBreaks.breaks.

  Definition good (x : part) : Prop := (forall w, pan (text x) = Some w <-> breaks x w) /\ (pan (text x) = None <-> writable x).
  Definition unflawed (x : part) : Prop := forall w, ~ flawed x w.

  Lemma first_split l w : firstp (map (fun y => pan (text y)) l) = Some w ->
    exists before y after, l = before ++ y :: after /\ (forall z, In z before -> pan (text z) = None) /\ pan (text y) = Some w.
  Proof.
    induction l as [|y l IH]; [discriminate|]. cbn [map firstp]. destruct (pan (text y)) as [v|] eqn:E.
    - intros [= ->]. exists [], y, l. split; [reflexivity|]. split; [now intros z []|exact E].
    - intros H. destruct (IH H) as (be & z & af & -> & H1 & H2). exists (y :: be), z, af. split; [reflexivity|]. split; [|exact H2].
      intros u [<-|Hu]; auto.
  Qed.
  Lemma first_all l : firstp (map (fun y => pan (text y)) l) = None -> forall z, In z l -> pan (text z) = None.
  Proof.
    induction l as [|y l IH]; [now intros _ z []|]. cbn [map firstp]. destruct (pan (text y)) as [v|] eqn:E; [discriminate|].
    intros H z [<-|Hz]; auto.
  Qed.

  Lemma good_called x : unflawed x -> Forall good (called x) -> pan (text x) = firstp (map (fun y => pan (text y)) (called x)) -> good x.
  Proof.
    intros HU HG E. rewrite Forall_forall in HG. split.
    - intros w. rewrite E. split.
      + intros H. apply first_split in H. destruct H as (be & y & af & El & H1 & H2).
        eapply br_called; [exact El| |].
        * apply Forall_forall. intros z Hz. apply HG; [rewrite El; apply in_or_app; now left|now apply H1].
        * apply HG; [rewrite El; apply in_or_app; right; now left|exact H2].
      + intros H. inversion H as [? ? HF|? ? be y af El HB HY]; subst; [now apply HU in HF|].
        rewrite El in *. rewrite map_app, firstp_app. rewrite Forall_forall in HB.
        rewrite firstp_none.
        * cbn [map firstp]. assert (pan (text y) = Some w) as -> by (apply HG; [apply in_or_app; right; now left|exact HY]). reflexivity.
        * intros o Ho. apply in_map_iff in Ho. destruct Ho as (z & <- & Hz). apply HG; [apply in_or_app; now left|now apply HB].
    - rewrite E. split.
      + intros H. constructor; [exact HU|]. apply Forall_forall. intros z Hz. apply HG; [exact Hz|]. eapply first_all; eassumption.
      + intros H. inversion H as [? _ HF]; subst. rewrite Forall_forall in HF. apply firstp_none. intros o Ho. apply in_map_iff in Ho.
        destruct Ho as (z & <- & Hz). apply HG; [exact Hz|now apply HF].
  Qed.
  Lemma good_flawed x w : flawed x w -> (forall v, flawed x v -> v = w) -> called x = [] -> pan (text x) = Some w -> good x.
  Proof.
    intros HF HU HC E. split.
    - intros v. rewrite E. split; [intros [= <-]; now constructor|]. intros H. inversion H as [? ? HV|? ? be y af El]; subst; [now rewrite (HU v HV)|].
      rewrite HC in El. now destruct be.
    - rewrite E. split; [discriminate|]. intros H. inversion H as [? HV _]; subst. exfalso. now apply (HV w).
  Qed.

  Lemma good_nothing : good OfNothing.
  Proof. apply good_flawed with (w := nil_method); [constructor|intros v H; now inversion H|reflexivity|reflexivity]. Qed.

  (** ** Expressions *)

  Lemma good_expr e : good (OfExpr e).
  Proof.
    induction e as [e IH] using expr_ind_size. destruct e as [v|ids|nam args|op x|op l r|op eop e0 s].
    - apply good_called; [intros w H; inversion H|constructor|reflexivity].
    - destruct ids as [|i l].
      + apply good_flawed with (w := behind_end 0); [constructor|intros v H; now inversion H|reflexivity|reflexivity].
      + apply good_called; [intros w H; inversion H|constructor|reflexivity].
    - apply good_called; [intros w H; inversion H| |].
      + cbn [called]. apply Forall_map, Forall_forall. intros a Ha. apply IH. rewrite size_sexpr. pose proof (args_size a args Ha). lia.
      + cbn [called part_text]. rewrite expr_call, pan_writes. cbn [map pan firstp]. rewrite pan_commas, !map_map.
        cbn [part_text]. now destruct (firstp _).
    - destruct op; try (apply good_called; [intros w H; inversion H|constructor|reflexivity]).
      apply good_called; [intros w H; inversion H| |].
      + constructor; [|constructor]. apply IH. cbn. lia.
      + cbn [called map part_text]. change (exprString T (UnaryExpr NoOp x)) with (exprString T x). cbn [firstp]. now rewrite firstp_some.
    - apply good_called; [intros w H; inversion H|constructor|reflexivity].
    - apply good_called; [intros w H; inversion H|constructor|reflexivity].
  Qed.

  (** ** Keys *)

  Lemma key_parts cols reverse i n : n = i + zlen reverse ->
    firstp (map pan (keyParts T i n cols reverse)) =
    if (length reverse <? length cols)%nat then Some (out_of_range n n) else None.
  Proof.
    revert cols i. induction reverse as [|r reverse IH]; intros [|c cols] i En; cbn [keyParts map pan firstp length]; try reflexivity.
    - unfold zlen in En. cbn in En. replace i with n by lia. reflexivity.
    - rewrite IH; [reflexivity|]. unfold zlen in *. cbn [length] in En. lia.
  Qed.
  Lemma behind_out n : behind_end n = out_of_range (Z.of_nat n) (Z.of_nat n).
  Proof. reflexivity. Qed.
  Lemma good_key k : good (OfKey k).
  Proof.
    assert (E : pan (text (OfKey k)) = if (length (ik_reverse k) <? length (ik_columns k))%nat then Some (behind_end (length (ik_reverse k))) else None).
    { cbn [part_text]. unfold keyString. rewrite pan_writes. cbn [map pan firstp]. rewrite pan_commas, key_parts by lia.
      destruct (_ <? _)%nat; reflexivity. }
    destruct (Nat.ltb_spec (length (ik_reverse k)) (length (ik_columns k))) as [H|H].
    - eapply good_flawed; [constructor; exact H|intros v HV; inversion HV; reflexivity|reflexivity|exact E].
    - apply good_called; [|constructor|exact E]. intros w HW. inversion HW; subst. lia.
  Qed.

  (** ** Items of FROM *)

  Lemma good_optional o : Forall good (optional o).
  Proof. destruct o; constructor; [apply good_expr|constructor]. Qed.
  Lemma good_from f : good (OfFrom f).
  Proof.
    apply good_called; [intros w H; inversion H| |].
    - destruct f; try constructor. apply good_optional.
    - destruct f as [tn a|tn i a|s a cols|l r jt cond cols]; try reflexivity; cbn [called part_text]; rewrite ?from_stmt, ?from_join, pan_writes; cbn [map pan firstp].
      + destruct cols; [reflexivity|]. rewrite pan_writes. cbn [map pan firstp]. now rewrite pan_ids.
      + assert (E : pan match cols with [] => PText [] | _ => writes [PText (str " USING ("); idCommas T cols; PText (str ")")] end = None).
        { destruct cols; [reflexivity|]. rewrite pan_writes. cbn [map pan firstp]. now rewrite pan_ids. }
        rewrite E. destruct cond as [e|]; [|reflexivity]. rewrite pan_writes. cbn [map pan firstp optional part_text]. now destruct (pan (exprString T e)).
  Qed.

  (** ** Statements *)

  Lemma column_parts types cols defaults i nc nd : nc = i + zlen cols -> nd = i + zlen defaults ->
    firstp (map pan (columnParts T i nc nd cols types defaults)) =
    let n := Nat.min (length cols) (length defaults) in
    if (n <? length types)%nat then Some (out_of_range (i + Z.of_nat n) (i + Z.of_nat n)) else None.
  Proof.
    revert cols defaults i. induction types as [|ct types IH]; intros cols defaults i Ec Ed; cbn [columnParts map firstp].
    - now destruct cols, defaults.
    - destruct cols as [|c cols]; [|destruct defaults as [|d defaults]]; cbn [columnParts map pan firstp length Nat.min] in *.
      + unfold zlen in Ec. cbn in *. replace nc with (i + 0) by lia. replace i with (i + 0) at 1 by lia. reflexivity.
      + unfold zlen in Ed. cbn in *. replace nd with (i + 0) by lia. replace i with (i + 0) at 1 by lia. reflexivity.
      + rewrite IH; [|unfold zlen in *; cbn [length] in *; lia..]. cbv zeta. set (n := Nat.min _ _).
        change (S n <? S (length types))%nat with (n <? length types)%nat. replace (i + 1 + Z.of_nat n) with (i + Z.of_nat (S n)) by lia. reflexivity.
  Qed.

  Lemma pan_flat {A} (f : A -> printed) l : (forall x, pan (f x) = None) -> pan (writes (map f l)) = None.
  Proof. intros H. rewrite pan_writes. apply firstp_none. intros o Ho. rewrite map_map in Ho. apply in_map_iff in Ho. destruct Ho as (x & <- & _). apply H. Qed.
  Lemma pan_fk fk : pan (fkString T fk) = None.
  Proof.
    unfold fkString. rewrite pan_writes. cbn [map pan firstp]. rewrite pan_ids. cbn [firstp].
    destruct (fk_refcols fk); [reflexivity|]. rewrite pan_writes. cbn [map pan firstp]. now rewrite pan_ids.
  Qed.

  Lemma good_exprs l : Forall good (map OfExpr l).
  Proof. apply Forall_map, Forall_forall. intros; apply good_expr. Qed.

  Lemma good_stmt s : good (OfStmt s).
  Proof.
    destruct s as [| | |va v|va|s ve|tn cols types defaults b csts fks|ix tn k b|db os|sn|tn acts|b c tbs|tn ix b|b db os|b sn|tn cols ln d|tn cond|tn cols rows|tn us cond|rows|rs f cond g h o];
      try (apply good_called; [intros w H; inversion H|constructor|reflexivity]).
    - (* CREATE TABLE *)
      assert (E : pan (text (OfStmt (SCreateTable tn cols types defaults b csts fks))) =
                  let n := Nat.min (length cols) (length defaults) in if (n <? length types)%nat then Some (behind_end n) else None).
      { cbn [part_text]. rewrite stmt_create, pan_writes. cbn [map pan firstp]. rewrite pan_commas, column_parts; [|unfold zlen; rewrite ?map_length; reflexivity..].
        rewrite map_length. cbv zeta. set (n := Nat.min _ _). destruct (n <? length types)%nat; [reflexivity|]. rewrite pan_flat; [reflexivity|].
        intros fk. rewrite pan_writes. cbn [map pan firstp]. now rewrite pan_fk. }
      cbv zeta in E. set (n := Nat.min _ _) in E. destruct (Nat.ltb_spec n (length types)) as [H|H].
      + eapply good_flawed; [constructor; [reflexivity|exact H]|intros v HV; inversion HV as [| | |? ? ? ? ? ? ? m Em]; now rewrite Em|reflexivity|exact E].
      + apply good_called; [|constructor|exact E]. intros w HW. inversion HW as [| | |? ? ? ? ? ? ? m Em]. fold n in Em. lia.
    - (* ALTER TABLE *)
      apply good_called; [intros w H; inversion H|constructor|]. cbn [part_text stmtString called map]. rewrite pan_writes. cbn [map pan firstp].
      rewrite pan_commas. unfold actionString. now rewrite pan_texts.
    - (* DROP TABLE *)
      apply good_called; [intros w H; inversion H|constructor|]. cbn [part_text stmtString called map]. rewrite pan_writes. cbn [map pan firstp].
      rewrite pan_commas. now rewrite pan_texts.
    - (* COPY *)
      apply good_called; [intros w H; inversion H|constructor|]. cbn [part_text stmtString called map]. rewrite pan_writes. cbn [map pan firstp].
      now rewrite pan_ids.
    - (* INSERT *)
      apply good_called; [intros w H; inversion H| |].
      + cbn [called]. apply Forall_map, Forall_forall. intros [e|] _; [apply good_expr|apply good_nothing].
      + cbn [part_text called]. rewrite stmt_insert, pan_writes. cbn [map pan firstp].
        assert (E : pan match cols with [] => PText [] | _ => writes [PText (str "("); idCommas T cols; PText (str ") ")] end = None).
        { destruct cols; [reflexivity|]. rewrite pan_writes. cbn [map pan firstp]. now rewrite pan_ids. }
        rewrite E, pan_rows, firstp_some, <- concat_map, !map_map. f_equal. apply map_ext. now intros [e|].
    - (* UPDATE *)
      apply good_called; [intros w H; inversion H|constructor|]. cbn [part_text called map]. rewrite stmt_update, pan_writes. cbn [map pan firstp].
      rewrite pan_commas. now rewrite pan_texts.
    - (* VALUES *)
      apply good_called; [intros w H; inversion H|apply good_exprs|]. cbn [part_text called]. rewrite stmt_values, pan_writes. cbn [map pan firstp].
      now rewrite pan_rows, firstp_some, <- concat_map, !map_map.
    - (* SELECT *)
      apply good_called; [intros w H; inversion H| |].
      + cbn [called]. apply Forall_app. split; [|apply Forall_app; split; [apply good_exprs|apply Forall_map, Forall_forall; intros; apply good_expr]].
        apply Forall_flat_map, Forall_forall. intros [t|e [|a|a]] _; repeat (constructor; try apply good_expr).
      + cbn [part_text called]. rewrite stmt_select, pan_writes. cbn [map pan firstp]. rewrite !map_app, !firstp_app.
        assert (E1 : pan match rs with
                     | Some l => commas (map (fun r => match r with
                         | TableResult t => PText (idString T t ++ str ".*")
                         | ExprResult e alias => if alias =? 0 then exprString T e else PText (fmtS (exprString T e) ++ str " AS " ++ idString T alias) end) l)
                     | None => PText (str "*") end =
                   firstp (map (fun y => pan (text y)) (flat_map (fun r => match r with ExprResult e 0 => [OfExpr e] | _ => [] end) match rs with Some l => l | None => [] end))).
        { destruct rs as [l|]; [|reflexivity]. rewrite pan_commas. induction l as [|[t|e [|a|a]] l IH]; [reflexivity|exact IH| |exact IH|exact IH].
          cbn [map flat_map app firstp Z.eqb part_text]. destruct (pan (exprString T e)); [reflexivity|exact IH]. }
        rewrite E1. clear E1. destruct (firstp (map _ (flat_map _ _))); [reflexivity|].
        assert (E2 : pan match g with [] => PText [] | _ => writes [PText (str " GROUP BY "); commas (map (exprString T) g); PText match h with Some e => str " HAVING " ++ fmtS (exprString T e) | None => [] end] end =
                     firstp (map (fun y => pan (text y)) (map OfExpr g))).
        { destruct g as [|e g]; [reflexivity|]. rewrite pan_writes. cbn [map pan firstp]. rewrite pan_commas. cbn [map firstp part_text]. rewrite !map_map.
          cbn [part_text]. destruct (pan (exprString T e)); [reflexivity|]. now destruct (firstp _). }
        rewrite E2. clear E2. destruct (firstp (map _ (map _ g))); [reflexivity|].
        rewrite firstp_some. destruct o as [|[e d] o]; [reflexivity|]. rewrite pan_writes. cbn [map pan firstp]. rewrite pan_commas, firstp_some.
        change (firstp (map pan (map (fun o : expr * bool => writes [exprString T (fst o); PText (if snd o then str " DESC" else str " ASC")]) ((e, d) :: o))) =
                firstp (map (fun y => pan (text y)) (map (fun o => OfExpr (fst o)) ((e, d) :: o)))).
        rewrite !map_map. f_equal. apply map_ext. intros [e' d']. rewrite pan_writes. cbn [map pan firstp fst part_text]. now destruct (pan (exprString T e')).
  Qed.

  Lemma good_part x : good x.
  Proof. destruct x; auto using good_expr, good_nothing, good_key, good_from, good_stmt. Qed.

  Lemma part_breaks x w : text x = PPanic w <-> breaks x w.
  Proof. rewrite <- (proj1 (good_part x) w). unfold pan. destruct (text x); split; congruence. Qed.
  Lemma part_fine x : (exists t, text x = PText t) <-> writable x.
  Proof. rewrite <- (proj2 (good_part x)). unfold pan. destruct (text x) as [t|w]; split; [reflexivity|now exists t|now intros (? & ?)|discriminate]. Qed.
End Breaks.

(** ** What is parsed *)

Definition deep (x : part) : Prop := forall y, within y x -> writable y.

Lemma deep_intro x : unflawed x -> (forall y, In y (called x ++ formatted x) -> deep y) -> deep x.
Proof.
  intros HU HP y Hy. inversion Hy as [|? z ? Hz Hw]; subst; [|now apply (HP z)].
  constructor; [exact HU|]. apply Forall_forall. intros z Hz. apply (HP z); [apply in_or_app; now left|apply wi_self].
Qed.
Lemma deep_part x y : deep x -> In y (called x ++ formatted x) -> deep y.
Proof. intros H HI z Hz. apply H. now apply wi_part with y. Qed.
Lemma deep_unflawed x : deep x -> unflawed x.
Proof. intros H. pose proof (H x (wi_self x)) as W. now inversion W. Qed.

Ltac unfl := let w := fresh in let H := fresh in intros w H; inversion H.

Notation dexpr e := (deep (OfExpr e)).

(** An expression is as deep as its words. *)
Definition word_deep (w : word) : Prop := match w with WAtom a => dexpr a | _ => True end.
Lemma args_words_in args (a : expr) w : In a args -> In w (words a) ->
  In w ((fix all (args : list expr) : list word := match args with [] => [] | a :: args' => words a ++ [WComma] ++ all args' end) args).
Proof.
  induction args as [|b args IH]; [intros []|]. intros [->|HI] Hw; [apply in_or_app; now left|]. apply in_or_app. right. right. now apply IH.
Qed.
Lemma args_words_out args w :
  In w ((fix all (args : list expr) : list word := match args with [] => [] | a :: args' => words a ++ [WComma] ++ all args' end) args) ->
  w = WComma \/ exists a, In a args /\ In w (words a).
Proof.
  induction args as [|b args IH]; [intros []|]. intros H. apply in_app_or in H. destruct H as [H|[<-|H]].
  - right. exists b. split; [now left|exact H].
  - now left.
  - destruct (IH H) as [->|(a & Ha & Hw)]; [now left|]. right. exists a. split; [now right|exact Hw].
Qed.

Lemma deep_words e : dexpr e <-> Forall word_deep (words e).
Proof.
  induction e as [e IH] using expr_ind_size. rewrite Forall_forall. destruct e as [v|ids|nam args|op x|op l r|op eop e0 s].
  - cbn [words]. split; [intros H w [<-|[]]; exact H|intros H; apply (H (WAtom (Literal v))); now left].
  - cbn [words]. split; [intros H w [<-|[]]; exact H|intros H; apply (H (WAtom (Ref ids))); now left].
  - assert (IHa : forall a, In a args -> (dexpr a <-> Forall word_deep (words a))) by (intros a Ha; apply IH; rewrite size_sexpr; pose proof (args_size a args Ha); lia).
    split.
    + intros H w Hw. cbn [words app In] in Hw. destruct Hw as [<-|Hw]; [exact Logic.I|]. apply in_app_or in Hw. destruct Hw as [Hw|[<-|[]]]; [|exact Logic.I].
      apply args_words_out in Hw. destruct Hw as [->|(a & Ha & Hw)]; [exact Logic.I|].
      assert (D : dexpr a) by (apply (deep_part _ _ H); apply in_or_app; left; cbn [called]; now apply in_map).
      apply IHa in D; [|exact Ha]. rewrite Forall_forall in D. now apply D.
    + intros H. apply deep_intro; [unfl|]. intros y Hy. cbn [called formatted] in Hy. rewrite app_nil_r in Hy. apply in_map_iff in Hy. destruct Hy as (a & <- & Ha).
      apply IHa; [exact Ha|]. apply Forall_forall. intros w Hw. apply H. cbn [words app In]. right. apply in_or_app. left. now apply args_words_in with a.
  - assert (IHx : dexpr x <-> Forall word_deep (words x)) by (apply IH; cbn; lia). rewrite Forall_forall in IHx.
    assert (E : forall w, In w (words (UnaryExpr op x)) -> word_deep w \/ In w (words x)).
    { intros w Hw. destruct op; cbn [words app In] in Hw; destruct Hw as [<-|Hw]; try (left; exact Logic.I); try (now right).
      apply in_app_or in Hw. destruct Hw as [Hw|[<-|[]]]; [now right|left; exact Logic.I]. }
    assert (E' : forall w, In w (words x) -> In w (words (UnaryExpr op x))).
    { intros w Hw. destruct op; cbn [words app]; right; try exact Hw. apply in_or_app. now left. }
    assert (C : forall y, In y (called (OfExpr (UnaryExpr op x)) ++ formatted (OfExpr (UnaryExpr op x))) <-> y = OfExpr x).
    { intros y. destruct op; cbn; intuition congruence. }
    split.
    + intros H w Hw. apply E in Hw. destruct Hw as [Hw|Hw]; [exact Hw|]. apply IHx; [|exact Hw]. apply (deep_part _ _ H). now apply C.
    + intros H. apply deep_intro; [unfl|]. intros y Hy. apply C in Hy. subst y. apply IHx. intros w Hw. now apply H, E'.
  - assert (IHl : dexpr l <-> Forall word_deep (words l)) by (apply IH; cbn; lia). rewrite Forall_forall in IHl.
    assert (IHr : dexpr r <-> Forall word_deep (words r)) by (apply IH; cbn; lia). rewrite Forall_forall in IHr.
    cbn [words]. split.
    + intros H w Hw. apply in_app_or in Hw. destruct Hw as [Hw|[<-|Hw]]; [|exact Logic.I|].
      * apply IHl; [|exact Hw]. apply (deep_part _ _ H). now left.
      * apply IHr; [|exact Hw]. apply (deep_part _ _ H). right. now left.
    + intros H. apply deep_intro; [unfl|]. intros y [<-|[<-|[]]].
      * apply IHl. intros w Hw. apply H. apply in_or_app. now left.
      * apply IHr. intros w Hw. apply H. apply in_or_app. right. now right.
  - cbn [words]. split; [intros H w [<-|[]]; exact H|intros H; apply (H (WAtom (Subquery op eop e0 s))); now left].
Qed.

Definition deep_opt (o : option expr) : Prop := forall e, o = Some e -> dexpr e.
Definition deep_exprs (l : list expr) : Prop := Forall (fun e => dexpr e) l.
Definition deep_result (r : selectresult expr) : Prop := match r with TableResult _ => True | ExprResult e _ => dexpr e end.

Lemma dx_literal v : dexpr (Literal v).
Proof. apply deep_intro; [unfl|intros y []]. Qed.
Lemma dx_ref i l : dexpr (Ref (i :: l)).
Proof. apply deep_intro; [unfl|intros y []]. Qed.
Lemma dx_call f l : deep_exprs l -> dexpr (SExpr f l).
Proof. intros H. unfold deep_exprs in H. rewrite Forall_forall in H. apply deep_intro; [unfl|]. intros y Hy. cbn [called formatted] in Hy. rewrite app_nil_r in Hy. apply in_map_iff in Hy. destruct Hy as (a & <- & Ha). now apply H. Qed.
Lemma dx_unary op e : dexpr e -> dexpr (UnaryExpr op e).
Proof. intros H. apply deep_intro; [unfl|]. intros y Hy. assert (y = OfExpr e) as -> by (destruct op; cbn in Hy; intuition congruence). exact H. Qed.
Lemma dx_binary op l r : dexpr l -> dexpr r -> dexpr (BinaryExpr op l r).
Proof. intros H1 H2. apply deep_intro; [unfl|]. now intros y [<-|[<-|[]]]. Qed.
Lemma dx_query op eop o s : deep_opt o -> deep (OfStmt s) -> dexpr (Subquery op eop o s).
Proof. intros H1 H2. apply deep_intro; [unfl|]. intros y Hy. cbn [called formatted app] in Hy. apply in_app_or in Hy. destruct Hy as [Hy|[<-|[]]]; [|exact H2]. destruct o as [e|]; [|destruct Hy]. destruct Hy as [<-|[]]. now apply H1. Qed.
Lemma optional_deep o y : deep_opt o -> In y (optional o) -> deep y.
Proof. intros H Hy. destruct o as [e|]; [|destruct Hy]. destruct Hy as [<-|[]]. now apply H. Qed.
Lemma deep_some e : dexpr e -> deep_opt (Some e).
Proof. now intros H ? [= <-]. Qed.
Lemma deep_none : deep_opt None.
Proof. discriminate. Qed.
Lemma deep_values rows : Forall deep_exprs rows -> deep (OfStmt (SValues rows)).
Proof.
  intros H. apply deep_intro; [unfl|]. intros y Hy. cbn [called formatted] in Hy. rewrite app_nil_r in Hy. apply in_map_iff in Hy. destruct Hy as (e & <- & He).
  apply in_concat in He. destruct He as (row & Hr & He). unfold deep_exprs in H. rewrite Forall_forall in H. specialize (H _ Hr). rewrite Forall_forall in H. now apply H.
Qed.
Lemma deep_select r f w g h o : (forall l, r = Some l -> Forall deep_result l) -> (forall x, f = Some x -> deep (OfFrom x)) -> deep_opt w ->
  deep_exprs g -> deep_opt h -> Forall (fun x => dexpr (fst x)) o -> deep (OfStmt (SSelect r f w g h o)).
Proof.
  intros H1 H2 H3 H4 H5 H6. unfold deep_exprs in H4. rewrite Forall_forall in H4, H6.
  assert (R : forall x, In x match r with Some l => l | None => [] end -> deep_result x).
  { destruct r as [l|]; [|intros x []]. specialize (H1 l eq_refl). now rewrite Forall_forall in H1. }
  apply deep_intro; [unfl|]. intros y Hy. cbn [called formatted] in Hy. rewrite !in_app_iff in Hy. repeat destruct Hy as [Hy|Hy].
  - apply in_flat_map in Hy. destruct Hy as (x & Hx & Hy). apply R in Hx. destruct x as [t|e [|a|a]]; try (now destruct Hy). destruct Hy as [<-|[]]; exact Hx.
  - apply in_map_iff in Hy. destruct Hy as (e & <- & He). now apply H4.
  - apply in_map_iff in Hy. destruct Hy as (x & <- & Hx). now apply H6.
  - apply in_flat_map in Hy. destruct Hy as (x & Hx & Hy). apply R in Hx. destruct x as [t|e a]; [destruct Hy|]. destruct Hy as [<-|[]]; exact Hx.
  - destruct f as [x|]; [|destruct Hy]. destruct Hy as [<-|[]]. now apply H2.
  - now apply optional_deep with w.
  - now apply optional_deep with h.
Qed.
Lemma deep_plain s : called (OfStmt s) = [] -> formatted (OfStmt s) = [] -> unflawed (OfStmt s) -> deep (OfStmt s).
Proof. intros E1 E2 H. apply deep_intro; [exact H|]. rewrite E1, E2. intros y []. Qed.
Lemma deep_table tn a : deep (OfFrom (FromTableAlias tn a)).
Proof. apply deep_intro; [unfl|intros y []]. Qed.
Lemma deep_join l r jt o cols : deep (OfFrom l) -> deep (OfFrom r) -> deep_opt o -> deep (OfFrom (FromJoin l r jt o cols)).
Proof. intros H1 H2 H3. apply deep_intro; [unfl|]. intros y Hy. cbn [called formatted] in Hy. apply in_app_or in Hy. destruct Hy as [Hy|[<-|[<-|[]]]]; [now apply optional_deep with o|exact H1|exact H2]. Qed.

Section Parsed.
  Variable id : bytes -> Z.
  Variable name : Z -> bytes.

  Lemma deep_show s ts : a_show id name s ts -> deep (OfStmt s).
  Proof.
    destruct 1 as [s ts H|k H]; [|apply deep_plain; [reflexivity..|unfl]].
    assert (SI : forall sc, dexpr (if sc =? 0 then Subquery Scalar AddOp None (SShow kSCHEMA) else text name sc)).
    { intros sc. destruct (sc =? 0); [|apply dx_literal]. apply dx_query; [apply deep_none|]. apply deep_plain; [reflexivity..|unfl]. }
    assert (SC : forall sc, dexpr (schema_is id name sc)).
    { intros sc. apply dx_binary; [apply dx_ref|]. apply SI. }
    destruct H; try (apply deep_plain; [reflexivity..|unfl]); apply deep_select; try discriminate; try exact deep_none; try apply Forall_nil;
      try (intros x [= <-]; apply deep_table); try apply deep_some; repeat apply dx_binary; try apply dx_ref; try apply dx_literal; try apply SC; try apply SI.
    intros l [= <-]. repeat (apply Forall_cons; [apply dx_ref|]). apply Forall_nil.
  Qed.
  Lemma deep_order o ts : opt_order o ts -> Forall (fun x => dexpr (fst x)) o.
  Proof.
    destruct 1 as [|l ts H]; [constructor|]. induction H as [i r ts H|i r ts l ts' H _ IH]; (apply Forall_cons; [apply dx_ref|]); [apply Forall_nil|exact IH].
  Qed.

  Lemma deep_grammar :
    (forall o e ts, a_operand id name o e ts -> dexpr e) /\
    (forall c e ts, a_sub id name c e ts -> dexpr e) /\
    (forall l ts, a_args id name l ts -> deep_exprs l) /\
    (forall e ts, a_whole id name e ts -> dexpr e) /\
    (forall l ts, a_wholes id name l ts -> deep_exprs l) /\
    (forall l ts, a_rows id name l ts -> Forall deep_exprs l) /\
    (forall r ts, a_result id name r ts -> deep_result r) /\
    (forall l ts, a_results id name l ts -> Forall deep_result l) /\
    (forall o ts, a_opt_results id name o ts -> forall l, o = Some l -> Forall deep_result l) /\
    (forall k o ts, a_opt_whole id name k o ts -> deep_opt o) /\
    (forall l ts, a_opt_group id name l ts -> deep_exprs l) /\
    (forall o ts, a_opt_from id name o ts -> forall x, o = Some x -> deep (OfFrom x)) /\
    (forall s ts, a_select id name s ts -> deep (OfStmt s)) /\
    (forall s ts, a_query id name s ts -> deep (OfStmt s)) /\
    (forall f ts, a_from_operand id name f ts -> deep (OfFrom f)) /\
    (forall c f ts, a_from_item id name c f ts -> deep (OfFrom f)) /\
    (forall f ts, a_from_list id name f ts -> deep (OfFrom f)) /\
    (forall f f' ts, a_from_more id name f f' ts -> deep (OfFrom f) -> deep (OfFrom f')).
  Proof.
    apply accepts_min; intros; try apply dx_literal; try apply dx_ref; try discriminate; try assumption;
      try (repeat apply dx_unary; assumption); try (apply dx_binary; assumption); try (apply dx_call; apply Forall_nil); try (apply dx_call; apply Forall_cons; [assumption|apply Forall_nil]);
      try (apply dx_query; [try exact deep_none; apply deep_some|]; assumption);
      try (apply dx_query; [apply deep_none|]; assumption); try (apply dx_call; assumption);
      try (apply Forall_cons; [assumption|]; first [apply Forall_nil|assumption]); try exact deep_none; try (apply deep_some; assumption).
    all: match goal with
         | |- dexpr (UnaryExpr _ _) => apply dx_unary, dx_call, Forall_cons; [assumption|apply Forall_nil]
         | E : words ?e = words _ |- dexpr ?e => apply deep_words; rewrite E; now apply deep_words
         | |- deep_result (TableResult _) => exact Logic.I
         | |- deep_exprs [] => apply Forall_nil
         | |- deep (OfStmt (SSelect None (Some _) _ [] _ [])) =>
             apply deep_select; try discriminate; try exact deep_none; try apply Forall_nil; intros x [= <-]; apply deep_table
         | O : opt_order _ _ |- _ => apply deep_select; try assumption; eapply deep_order; eassumption
         | |- deep (OfStmt (SValues _)) => now apply deep_values
         | A : a_show _ _ _ _ |- _ => eapply deep_show; eassumption
         | |- deep (OfFrom (FromTableAlias _ _)) => apply deep_table
         | |- deep (OfFrom (FromIndexAlias _ _ _)) => apply deep_intro; [unfl|intros y []]
         | |- deep (OfFrom (FromStmt _ _ _)) => apply deep_intro; [unfl|]; intros y [<-|[]]; assumption
         | |- deep (OfFrom (FromJoin _ _ _ None _)) => apply deep_join; try assumption; exact deep_none
         | |- deep (OfFrom (FromJoin _ _ _ (Some _) _)) => apply deep_join; try assumption; now apply deep_some
         | E : Some _ = Some _ |- _ => injection E as <-; assumption
         | K : deep (OfFrom (FromJoin _ _ _ None _)) -> deep ?x |- deep ?x => apply K, deep_join; try assumption; exact deep_none
         | _ => auto
         end.
  Qed.

  Lemma deep_whole e ts : a_whole id name e ts -> dexpr e.
  Proof. apply deep_grammar. Qed.
  Lemma deep_opt_whole k o ts : a_opt_whole id name k o ts -> deep_opt o.
  Proof. pose proof deep_grammar as G. decompose [and] G. eauto. Qed.
  Lemma deep_a_rows l ts : a_rows id name l ts -> Forall deep_exprs l.
  Proof. pose proof deep_grammar as G. decompose [and] G. eauto. Qed.
  Lemma deep_a_select s ts : a_select id name s ts -> deep (OfStmt s).
  Proof. pose proof deep_grammar as G. decompose [and] G. eauto. Qed.
  Lemma deep_or_default o ts : a_or_default id name o ts -> deep_opt o.
  Proof. destruct 1; [exact deep_none|]. apply deep_some. eapply deep_whole; eassumption. Qed.

  (** *** CREATE TABLE *)

  Definition key_ok (k : indexkey) : Prop := length (ik_reverse k) = length (ik_columns k).
  Lemma deep_key k : key_ok k -> deep (OfKey k).
  Proof. intros H. apply deep_intro; [|intros y []]. intros w HW. inversion HW; subst. unfold key_ok in H. lia. Qed.
  Definition cst_ok (c : constraint expr) : Prop := key_ok (con_key c) /\ deep_opt (con_check c).
  Lemma index_key_ok u k ts : index_key u k ts -> key_ok k.
  Proof. destruct 1 as [l rs ts H _]. unfold key_ok. cbn [ik_reverse ik_columns]. induction H as [|? ? ? ? ? ? ? _ IH]; [reflexivity|]. cbn [length]. now rewrite IH. Qed.
  Lemma key_cst_ok ct n k : key_ok k -> cst_ok (key_constraint ct n k).
  Proof. intros H. split; [exact H|exact deep_none]. Qed.
  Lemma column_cst_ok ct n col : cst_ok (column_constraint ct n col).
  Proof. split; [reflexivity|exact deep_none]. Qed.
  Lemma check_cst_ok n col e : dexpr e -> cst_ok (check_constraint n col e).
  Proof. intros H. split; [reflexivity|now apply deep_some]. Qed.

  Definition details_ok (st : coltype * option expr * list (constraint expr) * list foreignkey) : Prop :=
    let '(ct, d, cs, fs) := st in deep_opt d /\ Forall cst_ok cs.
  Lemma forall_snoc {A} (Q : A -> Prop) l x : Forall Q l -> Q x -> Forall Q (l ++ [x]).
  Proof. intros H1 H2. apply Forall_app. split; [exact H1|]. constructor; [exact H2|constructor]. Qed.
  Lemma column_details_ok c col st ts st' : a_column_details id name c col st ts st' -> details_ok st -> details_ok st'.
  Proof.
    induction 1; intros HI; [exact HI|..]; cbn [details_ok] in *;
      match goal with K : _ -> details_ok _ |- _ => apply K end; destruct HI as [I1 I2]; split; try assumption;
      try (apply deep_some; eapply deep_whole; eassumption);
      try (apply forall_snoc; [assumption|]; first [apply column_cst_ok|apply key_cst_ok; reflexivity|apply check_cst_ok; eapply deep_whole; eassumption]).
  Qed.
  Definition ctable_ok (s : ctable) : Prop :=
    length (cb_types s) = length (cb_cols s) /\ length (cb_defaults s) = length (cb_cols s) /\
    Forall deep_opt (cb_defaults s) /\ Forall cst_ok (cb_csts s).
  Lemma table_detail_ok s ts s' : a_table_detail id name s ts s' -> ctable_ok s -> ctable_ok s'.
  Proof.
    destruct 1 as [s tc c ct ts ct' d cs fs ts' _ _ _ H|s cn tc pr key ts _ H|s cn tc e ts _ H|s cn tc fk ts _ H]; intros (I1 & I2 & I3 & I4);
      unfold ctable_ok; cbn [cb_cols cb_types cb_defaults cb_csts].
    - apply column_details_ok in H; [|split; [exact deep_none|exact I4]]. destruct H as [J1 J2].
      rewrite !app_length, I1, I2. split; [reflexivity|]. split; [reflexivity|]. split; [now apply forall_snoc|exact J2].
    - repeat split; try assumption. apply forall_snoc; [exact I4|]. apply key_cst_ok. eapply index_key_ok; eassumption.
    - repeat split; try assumption. apply forall_snoc; [exact I4|]. apply check_cst_ok. eapply deep_whole; eassumption.
    - repeat split; assumption.
  Qed.
  Lemma table_details_ok s ts s' : a_table_details id name s ts s' -> ctable_ok s -> ctable_ok s'.
  Proof. induction 1 as [s ts s' H|s ts s1 ts' s' H _ IH]; intros I0; [|apply IH]; eapply table_detail_ok; eassumption. Qed.

  Lemma deep_create tn b s : ctable_ok s -> deep (OfStmt (SCreateTable tn (cb_cols s) (cb_types s) (cb_defaults s) b (cb_csts s) (cb_fks s))).
  Proof.
    intros (I1 & I2 & I3 & I4). apply deep_intro.
    - intros w HW. inversion HW as [| | |? ? ? ? ? ? ? m Em Hm]. lia.
    - intros y Hy. cbn [called formatted app] in Hy. apply in_app_or in Hy. rewrite Forall_forall in I3, I4. destruct Hy as [Hy|Hy].
      + apply in_flat_map in Hy. destruct Hy as (o & Ho & Hy). apply I3 in Ho. now apply optional_deep with o.
      + apply in_flat_map in Hy. destruct Hy as (c & Hc & Hy). apply I4 in Hc. destruct Hc as [K1 K2]. destruct Hy as [<-|Hy]; [now apply deep_key|].
        now apply optional_deep with (con_check c).
  Qed.

  (** *** INSERT and UPDATE *)

  Lemma deep_insert_row l ts : a_insert_row id name l ts -> Forall deep_opt l.
  Proof. induction 1 as [o ts H|o l ts ts' H _ IH]; (apply Forall_cons; [eapply deep_or_default; eassumption|]); [apply Forall_nil|exact IH]. Qed.
  Lemma deep_insert_rows l ts : a_insert_rows id name l ts -> Forall (Forall deep_opt) l.
  Proof. induction 1 as [o ts H|o l ts ts' H _ IH]; (apply Forall_cons; [eapply deep_insert_row; eassumption|]); [apply Forall_nil|exact IH]. Qed.
  Lemma deep_updates l ts : a_updates id name l ts -> Forall (fun u => deep_opt (snd u)) l.
  Proof. induction 1 as [i o ts H|i o l ts ts' H _ IH]; (apply Forall_cons; [eapply deep_or_default; eassumption|]); [apply Forall_nil|exact IH]. Qed.

  Definition sturdy (s : stmt) : Prop :=
    (forall y, within y (OfStmt s) -> y = OfStmt s \/ y = OfNothing \/ writable y) /\
    (forall w, breaks (OfStmt s) w <-> w = nil_method /\ defaulted s).

  Context {X : FloatLib} {P : PrintLib}.

  Lemma writable_not x w : writable x -> breaks x w -> Logic.False.
  Proof. intros H1 H2. apply (part_breaks idt_init) in H2. apply (part_fine idt_init) in H1. destruct H1 as (t & H1). congruence. Qed.
  Lemma deep_sturdy s : deep (OfStmt s) -> ~ defaulted s -> sturdy s.
  Proof.
    intros H HD. split; [intros y Hy; right; right; now apply H|]. intros w. split; [|intros [_ K]; now apply HD in K].
    intros K. exfalso. exact (writable_not _ _ (H _ (wi_self _)) K).
  Qed.
  Lemma insert_sturdy tn cols rows : Forall (Forall deep_opt) rows -> sturdy (SInsertValues tn cols rows).
  Proof.
    intros H. assert (HD : forall o, In o (concat rows) -> deep_opt o).
    { intros o Ho. apply in_concat in Ho. destruct Ho as (r & Hr & Ho). rewrite Forall_forall in H. apply H in Hr. rewrite Forall_forall in Hr. now apply Hr. }
    split.
    - intros y Hy. inversion Hy as [|? z ? Hz Hw]; subst; [now left|]. right. cbn [called formatted] in Hz. rewrite app_nil_r in Hz. apply in_map_iff in Hz.
      destruct Hz as (o & <- & Ho). apply HD in Ho. destruct o as [e|]; [right; now apply (Ho e)|]. left. inversion Hw as [|? z ? Hz]; subst; [reflexivity|destruct Hz].
    - assert (HF : forall o, In o (concat rows) -> forall w, breaks (or_nothing o) w -> o = None /\ w = nil_method).
      { intros [e|] Ho w HB; [exfalso; exact (writable_not _ _ (HD _ Ho e eq_refl _ (wi_self _)) HB)|]. split; [reflexivity|].
        inversion HB as [? ? HW|? ? be z af E]; subst; [now inversion HW|now destruct be]. }
      intros w. split.
      + intros HB. inversion HB as [? ? HW|? ? be z af E _ HZ]; subst; [inversion HW|]. cbn [called] in E.
        assert (Hz : In z (map or_nothing (concat rows))) by (rewrite E; apply in_or_app; right; now left). apply in_map_iff in Hz. destruct Hz as (o & <- & Ho).
        destruct (HF o Ho w HZ) as [-> ->]. split; [reflexivity|]. cbn [defaulted]. apply in_concat in Ho. exact Ho.
      + intros [-> (row & Hr & Hn)].
        assert (HI : In None (concat rows)) by (apply in_concat; now exists row).
        destruct (stmtString idt_init (SInsertValues tn cols rows)) as [t|v] eqn:E.
        * exfalso. assert (W : writable (OfStmt (SInsertValues tn cols rows))) by (apply (part_fine idt_init); now exists t).
          inversion W as [? _ WF]; subst. rewrite Forall_forall in WF. specialize (WF OfNothing). cbn [called] in WF. assert (writable OfNothing) as WN by (apply WF; change OfNothing with (or_nothing None); now apply in_map).
          inversion WN as [? WU _]; subst. apply (WU nil_method). constructor.
        * assert (HB : breaks (OfStmt (SInsertValues tn cols rows)) v) by now apply (part_breaks idt_init).
          inversion HB as [? ? HW|? ? be z af E' _ HZ]; subst; [inversion HW|]. cbn [called] in E'.
          assert (Hz : In z (map or_nothing (concat rows))) by (rewrite E'; apply in_or_app; right; now left). apply in_map_iff in Hz. destruct Hz as (o & <- & Ho).
          destruct (HF o Ho v HZ) as [-> ->]. exact HB.
  Qed.

  Lemma accepts_sturdy s ts : accepts id name s ts -> sturdy s.
  Proof.
    destruct 1;
      try (apply deep_sturdy; [apply deep_plain; [reflexivity..|unfl]|exact (fun H => H)]).
    - match goal with H : a_select _ _ _ _ |- _ => rename H into HS end. apply deep_sturdy; [eapply deep_a_select; eassumption|]. destruct HS. exact (fun H => H).
    - apply deep_sturdy; [apply deep_values; eapply deep_a_rows; eassumption|exact (fun H => H)].
    - apply deep_sturdy; [eapply deep_show; eassumption|]. match goal with H : a_show _ _ _ _ |- _ => destruct H as [? ? H|]; [destruct H|] end; exact (fun H => H).
    - apply deep_sturdy; [|exact (fun H => H)]. apply deep_intro; [unfl|]. intros y [<-|[]]. eapply deep_a_select; eassumption.
    - apply deep_sturdy; [|exact (fun H => H)]. apply deep_intro; [unfl|]. intros y [<-|[]]. eapply deep_a_select; eassumption.
    - apply insert_sturdy. eapply deep_insert_rows; eassumption.
    - apply deep_sturdy; [|exact (fun H => H)]. apply deep_intro; [unfl|]. intros y Hy. cbn [called formatted app] in Hy. apply in_app_or in Hy.
      match goal with H : a_updates _ _ _ _ |- _ => apply deep_updates in H; rewrite Forall_forall in H; rename H into HU end.
      destruct Hy as [Hy|Hy]; [apply in_flat_map in Hy; destruct Hy as (u & Hu & Hy); apply HU in Hu; now apply optional_deep with (snd u)|].
      eapply optional_deep; [eapply deep_opt_whole; eassumption|exact Hy].
    - apply deep_sturdy; [|exact (fun H => H)]. apply deep_intro; [unfl|]. intros y Hy. eapply optional_deep; [eapply deep_opt_whole; eassumption|exact Hy].
    - apply deep_sturdy; [|exact (fun H => H)]. apply deep_create. eapply table_details_ok; [eassumption|]. repeat split; constructor.
    - apply deep_sturdy; [|exact (fun H => H)]. apply deep_intro; [unfl|]. intros y [<-|[]]. apply deep_key. eapply index_key_ok; eassumption.
  Qed.
End Parsed.

Lemma parsed_sturdy (X : FloatLib) (L : CaseLib) (U : RuneLib) (B : BufLib) (P : PrintLib) : RuneLib_scan U -> forall input p s p',
  parsing input p -> p_unscanned p = 0%nat -> p_failed p = false -> real (s_ids (p_scanner p)) ->
  Parse p = PStmt (Some s) p' ->
  (forall y, within y (OfStmt s) -> y = OfStmt s \/ y = OfNothing \/ writable y) /\
  (forall w, breaks (OfStmt s) w <-> w = nil_method /\ defaulted s).
Proof.
  intros HU input p s p' H1 H2 H3 H4 HP. destruct (copies s) eqn:E.
  - destruct s; try discriminate E. apply deep_sturdy; [apply deep_plain; [reflexivity..|unfl]|exact (fun H => H)].
  - destruct (parse_sound HU input p s p' H1 H2 H3 H4 HP E) as (vs & left & _ & (ts & _ & H) & _). eapply accepts_sturdy; exact H.
Qed.
