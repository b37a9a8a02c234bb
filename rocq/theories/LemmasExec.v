(** Executing programs that use tables: loops over row sets. *)

From Verif Require Import ModelTyped SpecTyped LemmasBase LemmasKey LemmasValue LemmasTree LemmasStore LemmasWorld
  LemmasHistory LemmasSerial LemmasTable LemmasContents LemmasTableFacts LemmasTableCalls LemmasTableTypes LemmasRows LemmasTyped.

Lemma gentle_app x l1 l2 : gentle_log x l1 -> gentle_log x l2 -> gentle_log x (l1 ++ l2).
Proof. unfold gentle_log. intros. rewrite map_app. now apply Forall_app. Qed.

Lemma gentle_typed x lg : gentle_log x lg -> Forall op_typed (map fst lg).
Proof. apply Forall_impl. intros [y|y c|s q]; simpl; tauto. Qed.

Lemma created_app tid h1 h2 : created tid (h1 ++ h2) = created tid h1 || created tid h2.
Proof.
  induction h1 as [|[o out] h1 IH]; [reflexivity|]. cbn [app created].
  destruct o as [y|y c|s q]; try exact IH. destruct c; try exact IH. destruct out; try exact IH. rewrite IH. now rewrite orb_assoc.
Qed.

Lemma gentle_created x tid lg : gentle_log x lg -> created tid lg = false.
Proof.
  induction lg as [|[o out] lg IH]; [reflexivity|]. intros H. inversion H as [|? ? H1 H2]; subst. specialize (IH H2).
  cbn [created]. cbn [fst] in H1. destruct o as [y|y c|s q]; try exact IH. destruct c; try exact IH.
  destruct H1 as (_ & _ & []).
Qed.

Lemma gentle_recreated x tid h lg : gentle_log x lg -> recreated tid (h ++ lg) = recreated tid h.
Proof.
  intros H. induction h as [|[o out] h IH].
  - cbn [app]. clear - H. induction lg as [|[o out] lg IH]; [reflexivity|]. inversion H as [|? ? H1 H2]; subst. specialize (IH H2).
    cbn [recreated]. cbn [fst] in H1. destruct o as [y|y c|s q]; try exact IH. destruct c; try exact IH. destruct H1 as (_ & _ & []).
  - cbn [app recreated]. destruct o as [y|y c|s q]; try exact IH. destruct c; try exact IH. destruct out; try exact IH.
    rewrite IH, created_app, (gentle_created x tid lg H), orb_false_r. reflexivity.
Qed.

Lemma gentle_dropped x tid h lg : gentle_log x lg -> dropped tid (h ++ lg) = dropped tid h.
Proof.
  intros H. induction h as [|[o out] h IH].
  - cbn [app]. clear - H. induction lg as [|[o out] lg IH]; [reflexivity|]. inversion H as [|? ? H1 H2]; subst. specialize (IH H2).
    cbn [dropped]. cbn [fst] in H1. destruct o as [y|y c|s q]; try exact IH. destruct c; try exact IH. destruct H1 as (_ & _ & []).
  - cbn [app dropped]. destruct o as [y|y c|s q]; try exact IH. destruct c; try exact IH. destruct out; try exact IH. now rewrite IH.
Qed.

Section Ext.
  Context {X : FloatLib} {L : CaseLib} {G : GobLib}.

  Lemma ran_ext h w lg w' : ran h w -> run w (map fst lg) = (map snd lg, w') -> ran (h ++ lg) w'.
  Proof.
    intros (t0 & E) E'. exists t0. rewrite !map_app, run_app, E. cbn [fst snd]. rewrite E'. reflexivity.
  Qed.

  Lemma orderly_ext x tid h w lg w' : orderly tid h w -> run w (map fst lg) = (map snd lg, w') -> gentle_log x lg ->
    orderly tid (h ++ lg) w'.
  Proof.
    intros (A & B & C) E H. split; [eapply ran_ext; eassumption|]. split.
    - rewrite map_app. apply Forall_app. split; [exact B|]. eapply gentle_typed; exact H.
    - now rewrite (gentle_recreated x).
  Qed.

  Lemma run_one w o out w' : step w o = (out, w') -> run w (map fst [(o, out)]) = (map snd [(o, out)], w').
  Proof. intros E. cbn [map fst snd run]. rewrite E. reflexivity. Qed.

  Lemma gentle_one x o out : gentle x o -> gentle_log x [(o, out)].
  Proof. intros H. constructor; [exact H|constructor]. Qed.

  Lemma opened_app x l1 l2 : opened x (l1 ++ l2) = (opened x l1 + opened x l2)%nat.
  Proof. unfold opened, count_calls. now rewrite filter_app, app_length. Qed.
  Lemma closed_app x l1 l2 : closed x (l1 ++ l2) = (closed x l1 + closed x l2)%nat.
  Proof. unfold closed, count_calls. now rewrite filter_app, app_length. Qed.

  (** Positions of the objects made. *)
  Lemma made_table w x tid tn cn ct p : fst (made w x (COpenTable tid tn cn ct p)) = pred (length (tables_of w x)).
  Proof. unfold made, tables_of. now destruct (find_tx (w_txs w) x). Qed.
  Lemma made_ref w x j : fst (made w x (CCurrent j)) = pred (length (refs_of w x)).
  Proof. unfold made, refs_of. now destruct (find_tx (w_txs w) x). Qed.
  Lemma made_rows w x i cols mn mx p l rs : rowsets_of w x = l ++ [rs] ->
    made w x (CRows i cols mn mx p) = (length l, length (rs_items rs)).
  Proof.
    unfold made, rowsets_of. destruct (find_tx (w_txs w) x) as [tx|]; [|intros H; now destruct l].
    intros ->. rewrite app_length. cbn [length]. replace (pred (length l + 1)) with (length l) by lia.
    rewrite nth_error_app2, Nat.sub_diag by lia. reflexivity.
  Qed.

  (** Nothing but the given part of the state changes. *)
  Definition same_state (w w' : world) (x : nat) : Prop :=
    view w' x = view w x /\ tables_of w' x = tables_of w x /\ rowsets_of w' x = rowsets_of w x /\ refs_of w' x = refs_of w x.

  Lemma next_live w x t j rs n : wok w -> view w x = Some t -> nth_error (rowsets_of w x) j = Some rs ->
    rs_next rs = Z.of_nat n -> rs_cols rs = None -> (n <= length (rs_items rs))%nat ->
    match nth_error (rs_items rs) n with
    | Some it => exists w', step w (Call x (CNext j)) = (ORow (it_row it), w') /\ view w' x = Some t /\
        tables_of w' x = tables_of w x /\ refs_of w' x = refs_of w x /\ sh_idt (w_sh w') = sh_idt (w_sh w) /\
        rowsets_of w' x = set_nth j (rs_at rs (Z.of_nat (S n))) (rowsets_of w x)
    | None => exists w', step w (Call x (CNext j)) = (OErr EOF, w') /\ same_state w w' x /\ sh_idt (w_sh w') = sh_idt (w_sh w)
    end.
  Proof.
    intros K Hv Hj Hn Hc Hl. destruct (step w (Call x (CNext j))) as [out w'] eqn:E.
    destruct (live_step w x t (CNext j) out w' K Hv ltac:(discriminate) ltac:(discriminate) E)
      as (v & v' & Ev & Kv & V1 & V2 & V3 & V4 & V5 & W1 & W2 & W3 & W4 & W5 & W6).
    cbn [vstep] in Ev. rewrite V3, Hj, Hn in Ev.
    replace (Z.of_nat n <? 0) with false in Ev by (symmetry; apply Z.ltb_ge; lia).
    destruct (nth_error (rs_items rs) n) as [it|] eqn:En.
    - assert (n < length (rs_items rs))%nat as Hlt by (apply nth_error_Some; congruence).
      replace (Z.of_nat n =? zlen (rs_items rs)) with false in Ev by (symmetry; apply Z.eqb_neq; unfold zlen; lia).
      unfold znth in Ev. replace (Z.of_nat n <? 0) with false in Ev by (symmetry; apply Z.ltb_ge; lia).
      rewrite Nat2Z.id, En, Hc in Ev. injection Ev as <- <-. exists w'. cbn [v_set_rows v_tree v_tables v_rows v_refs v_idt] in *.
      replace (Z.of_nat (S n)) with (Z.of_nat n + 1) by lia.
      split; [reflexivity|]. split; [congruence|]. split; [congruence|]. split; [congruence|]. split; congruence.
    - apply nth_error_None in En. replace (Z.of_nat n =? zlen (rs_items rs)) with true in Ev by (symmetry; apply Z.eqb_eq; unfold zlen; lia).
      injection Ev as <- <-. exists w'. split; [reflexivity|]. split; [|congruence]. unfold same_state. repeat split; congruence.
  Qed.

  Lemma current_live w x t j rs n it : wok w -> view w x = Some t -> nth_error (rowsets_of w x) j = Some rs ->
    rs_next rs = Z.of_nat (S n) -> nth_error (rs_items rs) n = Some it ->
    exists w', step w (Call x (CCurrent j)) = (ODone, w') /\ view w' x = Some t /\
      tables_of w' x = tables_of w x /\ rowsets_of w' x = rowsets_of w x /\ sh_idt (w_sh w') = sh_idt (w_sh w) /\
      refs_of w' x = refs_of w x ++ [{| rr_tbl := rs_tbl rs; rr_key := it_key it |}].
  Proof.
    intros K Hv Hj Hn En. destruct (step w (Call x (CCurrent j))) as [out w'] eqn:E.
    destruct (live_step w x t (CCurrent j) out w' K Hv ltac:(discriminate) ltac:(discriminate) E)
      as (v & v' & Ev & Kv & V1 & V2 & V3 & V4 & V5 & W1 & W2 & W3 & W4 & W5 & W6).
    cbn [vstep] in Ev. rewrite V3, Hj, Hn in Ev.
    replace (Z.of_nat (S n) <=? 0) with false in Ev by (symmetry; apply Z.leb_gt; lia).
    unfold znth in Ev. replace (Z.of_nat (S n) - 1) with (Z.of_nat n) in Ev by lia.
    replace (Z.of_nat n <? 0) with false in Ev by (symmetry; apply Z.ltb_ge; lia).
    rewrite Nat2Z.id, En in Ev. injection Ev as <- <-. exists w'. cbn [v_add_ref v_tree v_tables v_rows v_refs v_idt] in *.
    split; [reflexivity|]. repeat split; congruence.
  Qed.

  Lemma close_live w x t j rs n : wok w -> view w x = Some t -> nth_error (rowsets_of w x) j = Some rs ->
    rs_next rs = Z.of_nat n ->
    exists w', step w (Call x (CClose j)) = (ODone, w') /\ view w' x = Some t /\
      tables_of w' x = tables_of w x /\ refs_of w' x = refs_of w x /\ sh_idt (w_sh w') = sh_idt (w_sh w).
  Proof.
    intros K Hv Hj Hn. destruct (step w (Call x (CClose j))) as [out w'] eqn:E.
    destruct (live_step w x t (CClose j) out w' K Hv ltac:(discriminate) ltac:(discriminate) E)
      as (v & v' & Ev & Kv & V1 & V2 & V3 & V4 & V5 & W1 & W2 & W3 & W4 & W5 & W6).
    cbn [vstep] in Ev. rewrite V3, Hj, Hn in Ev.
    replace (Z.of_nat n <? 0) with false in Ev by (symmetry; apply Z.ltb_ge; lia).
    injection Ev as <- <-. exists w'. cbn [v_set_rows v_tree v_tables v_rows v_refs v_idt] in *.
    split; [reflexivity|]. repeat split; congruence.
  Qed.

  (** Identifiers do not change in the calls on rows. *)
  Definition keepsI {A} (m : V A) : Prop := forall s, snd (snd (m s)) = snd s.
  Lemma keepsI_bind {A B} (m : V A) (f : A -> V B) : keepsI m -> (forall a, keepsI (f a)) -> keepsI (vbind m f).
  Proof.
    intros Hm Hf s. unfold vbind. specialize (Hm s). destruct (m s) as [[a|e|] s']; cbn [snd] in *; [rewrite (Hf a s'); exact Hm|exact Hm|exact Hm].
  Qed.
  Lemma keepsI_lift {A} (o : option A) : keepsI (vlift o).
  Proof. intros s. now destruct o. Qed.
  Lemma keepsI_Insert tb rs : keepsI (vInsertRows tb rs).
  Proof.
    induction rs as [|r rs IH]; cbn [vInsertRows]; [now intros s|]. apply keepsI_bind; [now intros s|]. intros r'.
    apply keepsI_bind; [apply keepsI_lift|]. intros it. apply keepsI_bind; [now intros s|]. intros t.
    destruct (t_has t it); [now intros s|]. apply keepsI_bind; [now intros s|]. intros _. exact IH.
  Qed.
  Lemma keepsI_Delete tb k : keepsI (vDelete tb k).
  Proof.
    unfold vDelete. apply keepsI_bind; [now intros s|]. intros t. cbv zeta. apply keepsI_bind; [now intros s|]. intros _.
    destruct (snd _); now intros s.
  Qed.
  Lemma keepsI_Update tb k cols vals : keepsI (vUpdate tb k cols vals).
  Proof.
    unfold vUpdate. destruct (negb _); [now intros s|]. apply keepsI_bind; [now intros s|]. intros t.
    destruct (t_get t _) as [it|]; [|now intros s]. apply keepsI_bind; [apply keepsI_lift|]. intros r.
    destruct (ColumnKeyUpdated _ _).
    - apply keepsI_bind; [apply keepsI_Delete|]. intros _. apply keepsI_Insert.
    - apply keepsI_bind; [apply keepsI_lift|]. intros it'. apply keepsI_bind; [now intros s|]. intros t'. now intros s.
  Qed.

  (** Calls that change rows only. *)
  Lemma change_live w x t c out w' : wok w -> view w x = Some t ->
    match c with CInsert _ _ | CUpdate _ _ _ | CDelete _ => True | _ => False end ->
    step w (Call x c) = (out, w') ->
    tables_of w' x = tables_of w x /\ rowsets_of w' x = rowsets_of w x /\ refs_of w' x = refs_of w x /\
    sh_idt (w_sh w') = sh_idt (w_sh w).
  Proof.
    intros K Hv Hc E.
    assert (c <> CCommit /\ c <> CRollback) as [N1 N2] by (split; intros ->; exact Hc).
    destruct (live_step w x t c out w' K Hv N1 N2 E)
      as (v & v' & Ev & Kv & V1 & V2 & V3 & V4 & V5 & W1 & W2 & W3 & W4 & W5 & W6).
    rewrite W2, W3, W4, W5, <- V2, <- V3, <- V4, <- V5.
    assert (forall (m : V unit), keepsI m -> vrun (fun v (_ : unit) => (ODone, v)) m v = (out, v') ->
      v_tables v' = v_tables v /\ v_rows v' = v_rows v /\ v_refs v' = v_refs v /\ v_idt v' = v_idt v) as Hrun.
    { intros m Hm Em. unfold vrun in Em. specialize (Hm (v_tree v, v_idt v)). destruct (m (v_tree v, v_idt v)) as [r [t' i']].
      cbn [snd] in Hm. destruct r; injection Em as _ <-; cbn; auto. }
    destruct c; try contradiction; cbn [vstep] in Ev.
    - destruct (nth_error _ _); [eapply Hrun; [|exact Ev]; apply keepsI_Insert|injection Ev as _ <-; auto].
    - destruct (nth_error _ _); [|injection Ev as _ <-; auto].
      destruct (nth_error _ _); [eapply Hrun; [|exact Ev]; apply keepsI_Update|injection Ev as _ <-; auto].
    - destruct (nth_error _ _); [|injection Ev as _ <-; auto].
      destruct (nth_error _ _); [eapply Hrun; [|exact Ev]; apply keepsI_Delete|injection Ev as _ <-; auto].
  Qed.

  Lemma rows_live w x t i cols mn mx p w' : wok w -> view w x = Some t -> step w (Call x (CRows i cols mn mx p)) = (ODone, w') ->
    tables_of w' x = tables_of w x /\ refs_of w' x = refs_of w x /\ sh_idt (w_sh w') = sh_idt (w_sh w).
  Proof.
    intros K Hv E.
    destruct (live_step w x t (CRows i cols mn mx p) _ w' K Hv ltac:(discriminate) ltac:(discriminate) E)
      as (v & v' & Ev & Kv & V1 & V2 & V3 & V4 & V5 & W1 & W2 & W3 & W4 & W5 & W6).
    apply vstep_obj in Ev. inversion Ev; subst; try (exfalso; match goal with H : ODone = ODone -> False |- _ => exact (H eq_refl) end).
    repeat split; congruence.
  Qed.

  (** Programs that register and read identifiers only. *)
  Lemma exec_quiet {A} x (p : prog A) : quiet p -> forall w r w' lg, exec w x p = (r, w', lg) ->
    qrun (sh_idt (w_sh w)) p = (r, sh_idt (w_sh w')) /\ same_state w w' x /\ gentle_log x lg /\ opened x lg = 0%nat /\ closed x lg = 0%nat.
  Proof.
    induction 1 as [r0|s q k Hq IH|i k Hq IH]; intros w r w' lg E; cbn [exec] in E.
    - injection E as <- <- <-. split; [reflexivity|]. split; [unfold same_state; auto|]. split; [constructor|]. split; reflexivity.
    - cbn [step] in E.
      set (w1 := {| w_sh := sh_with_idt (w_sh w) (fst (ID (sh_idt (w_sh w)) s q)); w_txs := w_txs w |}) in E.
      destruct (exec w1 x (k (snd (ID (sh_idt (w_sh w)) s q)))) as [[r1 w2] h1] eqn:E1. injection E as <- <- <-.
      destruct (IH _ _ _ _ _ E1) as (A1 & A2 & A3 & A4 & A5). split; [|split; [|split; [|split]]].
      + cbn [qrun]. exact A1.
      + exact A2.
      + constructor; [exact I|exact A3].
      + exact A4.
      + exact A5.
    - cbn [qrun]. now apply (IH _ w).
  Qed.

  (** A function applied to the rows in turn. *)
  Inductive loops {S} (B : idtable -> tree -> S -> row -> res (S * option error) -> idtable -> tree -> Prop)
    : idtable -> tree -> S -> list row -> res (S * option error) -> idtable -> tree -> Prop :=
    | lp_end i t s : loops B i t s [] (Ok (s, None)) i t
    | lp_next i t s r l s1 i1 t1 res i2 t2 :
        B i t s r (Ok (s1, None)) i1 t1 -> loops B i1 t1 s1 l res i2 t2 -> loops B i t s (r :: l) res i2 t2
    | lp_error i t s r l s1 e i1 t1 :
        B i t s r (Ok (s1, Some e)) i1 t1 -> loops B i t s (r :: l) (Ok (s1, not_eof e)) i1 t1
    | lp_abort i t s r l e i1 t1 : B i t s r (Err e) i1 t1 -> loops B i t s (r :: l) (Err e) i1 t1
    | lp_panic i t s r l i1 t1 : B i t s r Panic i1 t1 -> loops B i t s (r :: l) Panic i1 t1.

  (** A row set of a table, at a position. *)
  Record at_row (x i j : nat) (tb : table) (items : list item) (h : history) (w : world) (t : tree) (n : nat) : Prop := {
    ar_orderly : orderly (tb_tid tb) h w;
    ar_view : view w x = Some t;
    ar_table : nth_error (tables_of w x) i = Some tb;
    ar_rows : nth_error (rowsets_of w x) j = Some {| rs_tbl := i; rs_cols := None; rs_items := items; rs_next := Z.of_nat n |}
  }.

  Lemma set_nth_same {A} j (y : A) l : (j < length l)%nat -> nth_error (set_nth j y l) j = Some y.
  Proof. revert j. induction l as [|z l IH]; intros [|j] H; cbn in *; try lia; [reflexivity|]. apply IH. lia. Qed.

  Section Loop.
    Context (x i j : nat) (tb : table) (items : list item) {S : Type}.
    Context (Q : tree -> list row -> Prop).
    Context (fn : S -> nat -> row -> prog (S * option error)).
    Context (B : idtable -> tree -> S -> row -> res (S * option error) -> idtable -> tree -> Prop).
    Context (Hbody : forall h w t n it s, at_row x i j tb items h w t (Datatypes.S n) -> nth_error items n = Some it ->
      Q t (map it_row (skipn n items)) ->
      exists r w' lg t', exec w x (fn s j (it_row it)) = (r, w', lg) /\ gentle_log x lg /\ opened x lg = 0%nat /\ closed x lg = 0%nat /\
        at_row x i j tb items (h ++ lg) w' t' (Datatypes.S n) /\ B (sh_idt (w_sh w)) t s (it_row it) r (sh_idt (w_sh w')) t' /\
        (match r with Ok (_, None) => Q t' (map it_row (skipn (Datatypes.S n) items)) | _ => True end)).

    Lemma skipn_nth {A} (l : list A) n a : nth_error l n = Some a -> skipn n l = a :: skipn (Datatypes.S n) l.
    Proof.
      revert n. induction l as [|b l IH]; intros [|n] H; try discriminate; [now injection H as ->|].
      cbn [nth_error] in H. cbn [skipn]. rewrite (IH _ H). reflexivity.
    Qed.

    Lemma exec_loop : forall fuel n h w t s, at_row x i j tb items h w t n -> (n <= length items)%nat ->
      (length items - n < fuel)%nat -> Q t (map it_row (skipn n items)) ->
      exists r w' lg t' n', exec w x (selectLoop fuel j fn s) = (r, w', lg) /\ gentle_log x lg /\
        opened x lg = 0%nat /\ closed x lg = 0%nat /\ at_row x i j tb items (h ++ lg) w' t' n' /\
        loops B (sh_idt (w_sh w)) t s (map it_row (skipn n items)) r (sh_idt (w_sh w')) t'.
    Proof.
      induction fuel as [|fuel IH]; intros n h w t s HA Hn Hf HQ; [lia|].
      cbn [selectLoop]. rewrite exec_pthen. unfold callNext. cbn [exec].
      pose proof (ran_wok _ _ (proj1 (ar_orderly _ _ _ _ _ _ _ _ _ HA))) as K.
      pose proof (next_live w x t j _ n K (ar_view _ _ _ _ _ _ _ _ _ HA) (ar_rows _ _ _ _ _ _ _ _ _ HA) eq_refl eq_refl Hn) as HN.
      cbn [rs_items] in HN.
      assert (gentle x (Call x (CNext j))) as Gn by (cbn; auto).
      destruct (nth_error items n) as [it|] eqn:En.
      - destruct HN as (w1 & E1 & W1 & W2 & W3 & W4 & W5). rewrite E1. cbn [exec pret].
        assert (n < length items)%nat as Hlt by (apply nth_error_Some; congruence).
        assert (at_row x i j tb items (h ++ [(Call x (CNext j), ORow (it_row it))]) w1 t (Datatypes.S n)) as HA1.
        { constructor.
          - eapply orderly_ext; [exact (ar_orderly _ _ _ _ _ _ _ _ _ HA)|apply run_one; exact E1|apply gentle_one; exact Gn].
          - exact W1.
          - rewrite W2. exact (ar_table _ _ _ _ _ _ _ _ _ HA).
          - rewrite W5. apply set_nth_same. apply nth_error_Some. rewrite (ar_rows _ _ _ _ _ _ _ _ _ HA). discriminate. }
        rewrite exec_pbind.
        destruct (Hbody _ _ _ _ _ s HA1 En HQ) as (r & w2 & lg & t2 & E2 & G2 & O2 & C2 & A2 & B2 & Q2). rewrite E2.
        rewrite (skipn_nth _ _ _ En). cbn [map]. rewrite W4 in B2.
        destruct r as [[s1 oe]|e|].
        + cbn [snd fst]. destruct oe as [e|].
          * assert (exec w2 x (match e with EOF => pret (s1, None) | _ => pret (s1, Some e) end) = (Ok (s1, not_eof e), w2, [])) as E3
              by (destruct e; reflexivity).
            rewrite E3. do 5 eexists. split; [reflexivity|]. cbn [app]. rewrite app_nil_r.
            split; [apply (gentle_app _ [_]); [apply gentle_one; exact Gn|exact G2]|].
            split; [exact O2|]. split; [exact C2|]. split; [rewrite <- app_assoc in A2; exact A2|]. eapply lp_error; exact B2.
          * destruct (IH (Datatypes.S n) _ w2 t2 s1 A2 ltac:(lia) ltac:(lia) Q2) as (r3 & w3 & lg3 & t3 & n3 & E3 & G3 & O3 & C3 & A3 & L3).
            rewrite E3. do 5 eexists. split; [reflexivity|].
            split; [apply gentle_app; [apply gentle_one; exact Gn|apply gentle_app; assumption]|].
            split; [cbn [app]; change ((Call x (CNext j), ORow (it_row it)) :: lg ++ lg3) with ([(Call x (CNext j), ORow (it_row it))] ++ lg ++ lg3);
                    rewrite !opened_app, O2, O3; reflexivity|].
            split; [cbn [app]; change ((Call x (CNext j), ORow (it_row it)) :: lg ++ lg3) with ([(Call x (CNext j), ORow (it_row it))] ++ lg ++ lg3);
                    rewrite !closed_app, C2, C3; reflexivity|].
            split; [rewrite <- !app_assoc in A3; exact A3|]. eapply lp_next; eassumption.
        + do 5 eexists. split; [reflexivity|]. split; [apply gentle_app; [apply gentle_one; exact Gn|exact G2]|].
          split; [exact O2|]. split; [exact C2|]. split; [rewrite <- app_assoc in A2; exact A2|]. eapply lp_abort; exact B2.
        + do 5 eexists. split; [reflexivity|]. split; [apply gentle_app; [apply gentle_one; exact Gn|exact G2]|].
          split; [exact O2|]. split; [exact C2|]. split; [rewrite <- app_assoc in A2; exact A2|]. eapply lp_panic; exact B2.
      - destruct HN as (w1 & E1 & (S1 & S2 & S3 & S4) & S5). rewrite E1. cbn [exec pret pfail].
        assert (skipn n items = []) as -> by (apply skipn_all2; now apply nth_error_None).
        do 5 eexists. split; [reflexivity|]. split; [apply gentle_one; exact Gn|]. split; [reflexivity|]. split; [reflexivity|].
        split.
        + constructor.
          * eapply orderly_ext; [exact (ar_orderly _ _ _ _ _ _ _ _ _ HA)|apply run_one; exact E1|apply gentle_one; exact Gn].
          * rewrite S1. exact (ar_view _ _ _ _ _ _ _ _ _ HA).
          * rewrite S2. exact (ar_table _ _ _ _ _ _ _ _ _ HA).
          * rewrite S3. exact (ar_rows _ _ _ _ _ _ _ _ _ HA).
        + rewrite S5. constructor.
    Qed.
  End Loop.
End Ext.
