(** What the methods of the engine do to the catalogue. *)

From Verif Require Import ModelEngine SpecEngine LemmasBase LemmasKey LemmasValue LemmasIdent LemmasTree LemmasStore LemmasWorld
  LemmasHistory LemmasSerial LemmasTable LemmasContents LemmasTableFacts LemmasTableCalls LemmasTableTypes LemmasRows LemmasTyped
  LemmasExec LemmasSelect LemmasTypedTable LemmasCatalogue LemmasSystemTables LemmasEngineOps.

Definition ascending : list bytes -> Prop := StronglySorted (fun a b => bytes_compare a b = Lt).

Lemma sorted_map {A B} (R : B -> B -> Prop) (f : A -> B) l : StronglySorted R (map f l) <-> StronglySorted (fun a b => R (f a) (f b)) l.
Proof.
  induction l as [|a l IH]; [split; constructor|]. cbn [map]. split; intros H; apply StronglySorted_inv in H as [H1 H2]; constructor; try (now apply IH).
  - now rewrite Forall_map in H2.
  - now rewrite Forall_map.
Qed.

Lemma bytes_eqb_compare a b : bytes_eqb a b = true <-> bytes_compare a b = Eq.
Proof. rewrite bytes_eqb_eq, bytes_compare_eq. reflexivity. Qed.

Lemma filter_unbounded kc (l : list row) : filter (in_range kc None None) l = l.
Proof. induction l as [|r l IH]; [reflexivity|]. cbn. now rewrite IH. Qed.

Lemma range_from d a b : in_range kc2 (Some [VString d; VString []]) None [VString a; VString b] = match bytes_compare d a with Gt => false | _ => true end.
Proof. unfold in_range. cbn. destruct (bytes_compare d a); try reflexivity. destruct b; reflexivity. Qed.

Lemma quiet_bind {A B} (p : prog A) (k : A -> prog B) : quiet p -> (forall a, quiet (k a)) -> quiet (pbind p k).
Proof. intros H Hk. unfold pbind. induction H as [[a|e|]|s q k' H IH|i k' H IH]; cbn [pthen]; try constructor; auto. Qed.
Lemma qrun_bind {A B} {L : CaseLib} (p : prog A) (k : A -> prog B) i a i' : qrun i p = (Ok a, i') -> qrun i (pbind p k) = qrun i' (k a).
Proof.
  unfold pbind. revert i. induction p as [r|c k' IH|s q k' IH|j k' IH]; intros i H; cbn [pthen qrun] in *; auto; [|discriminate].
  injection H as -> ->. reflexivity.
Qed.

Lemma without_none {A} (eqb : A -> A -> bool) l a : has eqb l a = false -> without eqb l a = l.
Proof.
  unfold has, without. induction l as [|b l IH]; [reflexivity|]. cbn. destruct (eqb a b); [discriminate|]. cbn. intros H. now rewrite IH.
Qed.
Lemma with_databases_same c : with_databases c (c_databases c) = c.
Proof. now destruct c. Qed.
Lemma with_schemas_same c : with_schemas c (c_schemas c) = c.
Proof. now destruct c. Qed.

Section Calls.
  Context {X : FloatLib} {L : CaseLib} {G : GobLib} {F : Float32Lib} {E : EGobLib}.
  Context (HX : FloatLib_ok X) (HG : GobLib_ok G) (HL : CaseLib_ok L) (HF : Float32Lib_ok F) (HE : EGobLib_ok E).
  Context (I : einfos) (i0 : idtable) (ths : list idthread).
  Context (Hids : idreach (i0, ths)) (HI : sysinfos ths I).
  Context (t0 : idtable) (Ht0 : interns i0 t0).

  Notation pre := (pre I i0).
  Notation does := (does I i0 t0).
  Notation doesQ := (doesQ I i0 t0).

  (** ** Table ids *)
  Lemma next_id c : does (nextTableId I) c (Ok (c_next c)) (with_next c (i64 (c_next c + 1))).
  Proof.
    intros h w x (t & S & Hh) Hi. pose proof (sys_sequences HX HG HL I i0 ths Hids HI _ _ _ _ S) as CO.
    pose proof (ss_sequences _ _ HI) as SI. pose proof (si_tid _ _ _ _ _ _ _ _ SI) as Et. pose proof (si_types _ _ _ _ _ _ _ _ SI) as Ety.
    assert (structToRow (i_sequences I) (Some (sequencesRow nextTableIdSequence 0)) = Ok (Some [VString nextTableIdSequence; VInt 0])) as Em
      by (erewrite row_sequence by exact HI; reflexivity).
    pose proof (of_sequence nextTableIdSequence 0 ltac:(unfold is_i64; lia)) as Hs.
    pose proof (this_bound _ sequencesType _ _ Hs Em) as Bd.
    assert (is_i64 (c_next c)) as Hn.
    { destruct (rows_facts HX HG _ _ _ _ _ _ CO) as (Hr & _). rewrite Et, (ho_sequences _ _ Hh) in Hr.
      destruct (Hr _ (or_introl eq_refl)) as [W _]. apply Forall_inv_tail, Forall_inv in W. exact W. }
    unfold nextTableId. set (fn := fun (_ : Z) (row : row) => _ : prog (Z * (option upstruct + error))).
    assert (forall i s z, fst (qrun i (fn s [VString z; VInt (c_next c)])) =
      Ok (c_next c, inl (Some [(fieldName "Current", FInt KInt64 (i64 (c_next c + 1)))]))) as Hq.
    { intros i s z. unfold fn. erewrite read_sequence; [|exact HI|exact Hn]. reflexivity. }
    assert (forall s r, quiet (fn s r)) as Hqt.
    { intros s r. unfold fn. destruct (RowToStruct (i_sequences I) r (sequencesRow [] 0)); constructor. }
    destruct (typed_update HX HG _ h w x t (i_sequences I) kc1 sequencesType _ _ _ _ fn 0 CO
      (si_made _ _ _ _ _ _ _ _ SI) ltac:(rewrite Ety; reflexivity) Bd Bd Hqt) as (r & w' & lg & t' & Ex & V & G1 & O1 & Vu).
    { intros i s row s' u. unfold fn. destruct (RowToStruct (i_sequences I) row (sequencesRow [] 0)) as [sr|e|]; unfold pbind; cbn [pthen qrun pret fst];
        try discriminate. intros [= <- <-]. repeat constructor. exists (FTBase KInt64). cbn. split; [reflexivity|]. pose proof (i64_range (intField sr 1 + 1)).
      unfold is_i64 in *. lia. }
    rewrite Et, (ho_sequences _ _ Hh) in Vu. cbn [filter] in Vu.
    rewrite (proj2 (range_same HX HG h w x t _ _ _ _ _ CO Hs Em [VString (str "next_table_id"); VInt (c_next c)]
      ltac:(rewrite Et, (ho_sequences _ _ Hh); left; reflexivity))) in Vu.
    2: { intros cc d [[= <- <-]|[]]. now left. }
    assert (structToColsVals (i_sequences I) [(fieldName "Current", FInt KInt64 (i64 (c_next c + 1)))] = Ok ([1], [VInt (i64 (c_next c + 1))])) as Ec.
    { unfold structToColsVals. rewrite (si_flds _ _ _ _ _ _ _ _ SI), Ety. reflexivity. }
    assert (~ assigns_key kc1 [1]) as Hna.
    { intros (cc & dd & [[= <- <-]|[]] & Hc2). cbn in Hc2. destruct Hc2 as [Hc2|[]]. discriminate. }
    set (ii := idt_open w x (i_sequences I)) in Vu. specialize (Hq ii 0 (str "next_table_id")).
    inversion Vu; subst;
    match goal with H : qrun _ _ = _ |- _ => rewrite H in Hq; cbn [fst] in Hq; try discriminate Hq; injection Hq as -> -> end;
    match goal with H : structToColsVals _ _ = _ |- _ => rewrite Ec in H; try discriminate H; injection H as <- <- end;
    match goal with H : updated _ _ _ _ _ _ _ _ |- _ => destruct H as (rest & U1 & U2 & U3 & _); specialize (U3 Hna); destruct U3 as [U3 U4]; try discriminate U3 end.
    cbn [table_of tb_tid] in *. rewrite Et in *. rewrite (ho_sequences _ _ Hh) in U1. 
    match goal with H : visit_update _ _ _ _ _ [] _ _ _ |- _ => inversion H; subst end.
    apply Permutation_length_1_inv in U1. injection U1 as ->. apply Permutation_sym, Permutation_length_1_inv in U4. cbn in U4.
    change (rows_in t' 16 = [[VString (str "next_table_id"); VInt (i64 (c_next c + 1))]]) in U4.
    exists (Ok (c_next c)), w', lg. rewrite exec_pbind, Ex. cbn [orFail snd fst pret exec]. rewrite app_nil_r. split; [reflexivity|].
    do 2 (split; [assumption|]). split; [|reflexivity].
    eapply pre_change; try eassumption; [lia|]. destruct Hh as [B0 B1 B2 B3 B4].
    constructor; try assumption; match goal with |- context [rows_in t' ?k] => rewrite (U2 k ltac:(lia) ltac:(lia)) end; assumption.
  Qed.

  (** ** Listings *)
  Definition reads {S} (fn : S -> row -> prog (S * option error)) (i : idtable) (t : tree) (s : S) (row : row)
      (r : res (S * option error)) (i' : idtable) (t' : tree) : Prop := qrun i (fn s row) = (r, i') /\ t' = t.

  Lemma select_loops {S} h w x t ti kc st mnS mxS mn mx (fn : S -> row -> prog (S * option error)) s :
    can_open h w x t ti kc -> bound_for ti st mnS mn -> bound_for ti st mxS mx -> (forall s r, quiet (fn s r)) ->
    exists r w' lg, exec w x (TypedTableSelect ti mnS mxS fn s) = (r, w', lg) /\
      view w' x = Some t /\ gentle_log x lg /\ opened x lg = closed x lg /\
      exists i, interns (sh_idt (w_sh w)) i /\
      loops (reads fn) i t s (filter (in_range kc mn mx) (rows_in t (ti_tid ti))) r (sh_idt (w_sh w')) t.
  Proof.
    intros CO Bmn Bmx Hq. destruct (bound_facts _ _ _ _ Bmn) as [W1 L1]. destruct (bound_facts _ _ _ _ Bmx) as [W2 L2].
    destruct (exec_select HX HG h w x t ti kc mnS mxS mn mx (fun s _ row => fn s row) s (reads fn) CO (proj2 Bmn) (proj2 Bmx) W1 W2 L1 L2)
      as (r & w' & lg & t' & Ex & G1 & O1 & V1 & L3).
    { intros i j tb items h0 w0 t1 n it s0 HA _ _ _ Hi HQ.
      destruct (quiet_at x i j tb items h0 w0 t1 _ (fn s0 (it_row it)) HA (Hq _ _)) as (r & w' & lg & Ex & G1 & O1 & C1 & A1 & Q1).
      exists r, w', lg, t1. do 5 (split; [assumption|]). split; [split; auto|].
      destruct r as [[s1 [e|]]| |]; auto. rewrite (skipn_nth _ _ _ Hi) in HQ. eapply still_there_weaken. exact HQ. }
    assert (t' = t) as ->.
    { clear - L3. induction L3 as [|i t s r l s1 i1 t1 res i2 t2 [_ ->] _ IH|i t s r l s1 e i1 t1 [_ ->]|i t s r l e i1 t1 [_ ->]|i t s r l i1 t1 [_ ->]]; auto. }
    exists r, w', lg. do 4 (split; [assumption|]). exists (idt_open w x ti). split; [|exact L3].
    destruct (exec_open HX HG _ _ _ _ _ _ CO) as (i & tb & w1 & lg1 & E1 & _ & _ & _ & _ & Ew). unfold idt_open. fold (openCall ti).
    rewrite <- Ew. eapply exec_idt; [|exact E1]. eapply ran_wok. exact (proj1 (co_orderly _ _ _ _ _ _ CO)).
  Qed.

  Definition readDatabase (l : list Z) (row : row) : prog (list Z * option error) :=
    do! dr := PRet (RowToStruct (i_databases I) row (databasesRow [])) in
    do! id := pID (stringField dr 0) true in
    pret (l ++ [id], None).

  Lemma name_length n : fits n = true -> (length n <= 128)%nat.
  Proof. unfold fits, zlen. rewrite Z.leb_le. lia. Qed.

  Lemma read_databases t ds : Forall (fun d => fits d = true) ds -> forall i acc r i' t', idt_ok i ->
    loops (reads readDatabase) i t acc (map (fun d => [VString d]) ds) r i' t' ->
    exists ids, r = Ok (acc ++ ids, None) /\ interns i i' /\ Forall (known_id i') ids /\ map (idString i') ids = ds.
  Proof.
    induction 1 as [|d ds Hd Hds IH]; intros i acc r i' t' K Hl.
    - inversion Hl; subst. exists []. rewrite app_nil_r. repeat split; constructor.
    - cbn [map] in Hl. assert (qrun i (readDatabase acc [VString d]) = (Ok (acc ++ [snd (ID i d true)], None), fst (ID i d true))) as Hq.
      { unfold readDatabase. erewrite read_database by exact HI. reflexivity. }
      destruct (ID i d true) as [i1 id] eqn:Ei. cbn [fst snd] in Hq.
      inversion Hl; subst; match goal with H : reads _ _ _ _ _ _ _ _ |- _ => destruct H as [H ->]; rewrite Hq in H; try discriminate H; injection H as <- <- end.
      pose proof (interns_ID i d true) as H1. rewrite Ei in H1. cbn [fst] in H1. destruct (interns_ok _ _ H1 K) as [K1 _].
      destruct (ID_quoted i d i1 id K (name_length d Hd) Ei) as [Hs _].
      assert (known_id i1 id) as Hk.
      { destruct (means_total d true) as [m M]. destruct (ID_spec i d true i1 id m K M Ei) as (_ & _ & Hm & _). eapply entry_known; eassumption. }
      match goal with H : loops _ _ _ _ _ _ _ _ |- _ => destruct (IH _ _ _ _ _ K1 H) as (ids & -> & H2 & H3 & H4) end.
      exists (id :: ids). rewrite <- app_assoc. split; [reflexivity|]. split; [eapply interns_trans; eassumption|].
      destruct (name_stays i1 i' id K1 H2 Hk) as [N1 N2]. split; [constructor; assumption|]. cbn [map]. now rewrite H4, N1, Hs.
  Qed.

  Definition lists (names : list bytes) (r : res (list Z)) (t : idtable) : Prop :=
    exists ids, r = Ok ids /\ Permutation (map (idString t) ids) names /\ ascending (map (idString t) ids).

  Lemma idt_of h w x c : pre h w x c -> interns t0 (sh_idt (w_sh w)) -> idt_ok (sh_idt (w_sh w)).
  Proof. intros _ H. exact (proj1 (interns_ok _ _ H (t0_ok i0 ths Hids t0 Ht0))). Qed.

  Lemma list_databases c : doesQ (listDatabases I) c (lists (c_databases c)) c.
  Proof.
    intros h w x (t & S & Hh) Hi. pose proof (sys_databases HX HG HL I i0 ths Hids HI _ _ _ _ S) as CO.
    pose proof (si_tid _ _ _ _ _ _ _ _ (ss_databases _ _ HI)) as Et.
    unfold listDatabases. change (fun (l : list Z) (row : row) => _) with readDatabase.
    assert (bound_for (i_databases I) databasesType None None) as Bn by (split; [discriminate|reflexivity]).
    destruct (select_loops h w x t (i_databases I) kc1 databasesType None None None None readDatabase [] CO Bn Bn)
      as (r & w' & lg & Ex & V & G1 & O1 & i & Hii & Lp).
    { intros s r. unfold readDatabase. destruct (RowToStruct (i_databases I) r (databasesRow [])); unfold pbind; cbn; repeat constructor. }
    rewrite Et in Lp. destruct (rows_facts HX HG _ _ _ _ _ _ CO) as (_ & So & _). rewrite Et in So.
    destruct (Permutation_map_inv _ _ (ho_databases _ _ Hh)) as (ds & Er & Pd).
    rewrite Er in Lp, So.
    rewrite filter_unbounded in Lp. apply sorted_map in So.
    assert (Forall (fun d => fits d = true) ds) as Hds.
    { pose proof (ho_fits _ _ Hh) as H. rewrite Forall_app in H. eapply Permutation_Forall; [exact Pd|exact (proj1 H)]. }
    pose proof (idt_of _ _ _ c ltac:(exists t; eauto) Hi) as K. destruct (interns_ok _ _ Hii K) as [K1 _].
    destruct (read_databases t ds Hds _ _ _ _ _ K1 Lp) as (ids & -> & _ & _ & Hn).
    exists (Ok ids), w', lg. rewrite exec_pbind, Ex. cbn [orFail snd fst pret exec app]. rewrite app_nil_r. split; [reflexivity|].
    do 2 (split; [assumption|]). split; [eapply pre_same; eassumption|].
    exists ids. split; [reflexivity|]. rewrite Hn. split; [now apply Permutation_sym|].
    clear - So. induction So as [|d ds H IH H1]; constructor; [exact IH|]. eapply Forall_impl; [|exact H1]. cbn. intros a Ha.
    now destruct (bytes_compare d a).
  Qed.

  Definition readSchema (dn : Z) (l : list Z) (row : row) : prog (list Z * option error) :=
    do! sr := PRet (RowToStruct (i_schemas I) row (schemasRow [] [])) in
    do! d := pName dn in
    if bytes_eqb (stringField sr 0) d then
      do! id := pID (stringField sr 1) true in
      pret (l ++ [id], None)
    else pret (l, Some EOF).

  Notation schema_row := (fun e : bytes * bytes => [VString (fst e); VString (snd e)]).
  Notation schema_lt := (fun a b : bytes * bytes => key_order kc2 [VString (fst a); VString (snd a)] [VString (fst b); VString (snd b)] = Lt).

  Lemma read_schemas t dn es : known_id t0 dn -> Forall (fun e => fits (snd e) = true) es -> StronglySorted schema_lt es ->
    Forall (fun e => bytes_compare (idString t0 dn) (fst e) <> Gt) es -> forall i acc r i' t', interns t0 i ->
    loops (reads (readSchema dn)) i t acc (map schema_row es) r i' t' ->
    exists ids, r = Ok (acc ++ ids, None) /\ interns i i' /\ Forall (known_id i') ids /\
      map (idString i') ids = map snd (filter (fun e => bytes_eqb (fst e) (idString t0 dn)) es).
  Proof.
    intros Hdn. set (d := idString t0 dn). pose proof (t0_ok i0 ths Hids t0 Ht0) as K0.
    intros Hes. induction Hes as [|[a b] es Hd Hds IH]; intros So Hge i acc r i' t' Hi Hl.
    - inversion Hl; subst. exists []. rewrite app_nil_r. repeat split; constructor.
    - destruct (interns_ok _ _ Hi K0) as [K _]. cbn [map fst snd] in *.
      apply StronglySorted_inv in So as [So1 So2]. inversion Hge as [|? ? G1 G2]; subst. cbn [fst] in G1.
      assert (qrun i (readSchema dn acc [VString a; VString b]) =
        if bytes_eqb a d then (Ok (acc ++ [snd (ID i b true)], None), fst (ID i b true)) else (Ok (acc, Some EOF), i)) as Hq.
      { unfold readSchema. erewrite read_schema by exact HI. cbn. rewrite (proj1 (name_stays _ _ dn K0 Hi Hdn)). fold d.
        destruct (bytes_eqb a d); reflexivity. }
      cbn [filter fst snd]. destruct (bytes_eqb a d) eqn:Ead.
      + destruct (ID i b true) as [i1 id] eqn:Ei. cbn [fst snd] in Hq.
        inversion Hl; subst; match goal with H : reads _ _ _ _ _ _ _ _ |- _ => destruct H as [H ->]; rewrite Hq in H; try discriminate H; injection H as <- <- end.
        pose proof (interns_ID i b true) as H1. rewrite Ei in H1. cbn [fst] in H1. destruct (interns_ok _ _ H1 K) as [K1 _].
        destruct (ID_quoted i b i1 id K (name_length b Hd) Ei) as [Hs _].
        assert (known_id i1 id) as Hk.
        { destruct (means_total b true) as [m M]. destruct (ID_spec i b true i1 id m K M Ei) as (_ & _ & Hm & _). eapply entry_known; eassumption. }
        match goal with H : loops _ _ _ _ (map _ es) _ _ _ |- _ => destruct (IH So1 G2 _ _ _ _ _ (interns_trans _ _ _ Hi H1) H) as (ids & -> & H2 & H3 & H4) end.
        exists (id :: ids). rewrite <- app_assoc. split; [reflexivity|]. split; [eapply interns_trans; eassumption|].
        destruct (name_stays i1 i' id K1 H2 Hk) as [N1 N2]. split; [constructor; assumption|]. cbn [map snd]. now rewrite H4, N1, Hs.
      + assert (filter (fun e => bytes_eqb (fst e) d) es = []) as ->.
        { assert (bytes_compare d a = Lt) as Hlt.
          { destruct (bytes_compare d a) eqn:Ec; [|reflexivity|exfalso; now apply G1].
            apply bytes_compare_eq in Ec. rewrite <- Ec, bytes_eqb_refl in Ead. discriminate. }
          clear - So2 Hlt. induction So2 as [|[a' b'] es H1 H2 IH]; [reflexivity|]. cbn [filter fst]. cbn in H1.
          destruct (bytes_eqb a' d) eqn:Ed; [exfalso|exact IH]. apply bytes_eqb_eq in Ed. subst a'.
          rewrite (bytes_compare_antisym d a), Hlt in H1. discriminate. }
        inversion Hl; subst; match goal with H : reads _ _ _ _ _ _ _ _ |- _ => destruct H as [H ->]; rewrite Hq in H; try discriminate H; injection H; intros; subst end.
        exists []. rewrite app_nil_r. cbn. repeat split; constructor.
  Qed.

  Lemma select_schemas dn c : known_id t0 dn -> fits (idString t0 dn) = true ->
    doesQ (do! q := TypedTableSelect (i_schemas I) (Some (schemasRow (idString t0 dn) [])) None (readSchema dn) [] in orFail q) c
      (lists (map snd (filter (fun e => bytes_eqb (fst e) (idString t0 dn)) (c_schemas c)))) c.
  Proof.
    intros Hdn Hf h w x (t & S & Hh) Hi. pose proof (sys_schemas HX HG HL I i0 ths Hids HI _ _ _ _ S) as CO.
    pose proof (si_tid _ _ _ _ _ _ _ _ (ss_schemas _ _ HI)) as Et. set (d := idString t0 dn) in *.
    assert (bound_for (i_schemas I) schemasType None None) as Bn by (split; [discriminate|reflexivity]).
    assert (bound_for (i_schemas I) schemasType (Some (schemasRow d [])) (Some [VString d; VString []])) as Bm.
    { apply this_bound; [apply of_schema|]. erewrite row_schema by exact HI. rewrite Hf. reflexivity. }
    destruct (select_loops h w x t (i_schemas I) kc2 schemasType _ None _ None (readSchema dn) [] CO Bm Bn)
      as (r & w' & lg & Ex & V & G1 & O1 & i & Hii & Lp).
    { intros s r. unfold readSchema. destruct (RowToStruct (i_schemas I) r (schemasRow [] [])); unfold pbind; cbn; try constructor.
      intros n. destruct (bytes_eqb _ n); repeat constructor. }
    rewrite Et in Lp. destruct (rows_facts HX HG _ _ _ _ _ _ CO) as (_ & So & _). rewrite Et in So.
    destruct (Permutation_map_inv _ _ (ho_schemas _ _ Hh)) as (es & Er & Pd). rewrite Er in Lp, So. apply sorted_map in So.
    rewrite filter_map_comm in Lp.
    set (es' := filter _ es) in Lp.
    assert (forall e, In e es -> fits (snd e) = true) as Hes.
    { pose proof (ho_fits _ _ Hh) as H. rewrite !Forall_app in H. destruct H as (_ & _ & H). rewrite Forall_map in H.
      intros e He. apply (proj1 (Forall_forall _ _) H). eapply Permutation_in; [apply Permutation_sym; exact Pd|exact He]. }
    assert (Forall (fun e => fits (snd e) = true) es') as Hes'.
    { apply Forall_forall. intros e He. apply filter_In in He as [He _]. now apply Hes. }
    assert (Forall (fun e => bytes_compare d (fst e) <> Gt) es') as Hge.
    { apply Forall_forall. intros [a b] He. apply filter_In in He as [_ He]. cbn beta in He. cbn [fst snd] in He |- *. rewrite range_from in He. destruct (bytes_compare d a); discriminate. }
    assert (filter (fun e => bytes_eqb (fst e) d) es' = filter (fun e => bytes_eqb (fst e) d) es) as Ef.
    { unfold es'. generalize d. clear. intros d. induction es as [|[a b] es IH]; [reflexivity|]. cbn [filter fst snd]. rewrite range_from.
      destruct (bytes_eqb a d) eqn:Ed.
      - apply bytes_eqb_eq in Ed. subst a. rewrite bytes_compare_refl. cbn [filter fst]. rewrite bytes_eqb_refl. now rewrite IH.
      - destruct (bytes_compare d a); cbn [filter fst]; rewrite ?Ed; exact IH. }
    assert (interns t0 i) as Hti by (eapply interns_trans; eassumption).
    destruct (read_schemas t dn es' Hdn Hes' (sorted_filter _ _ _ So) Hge _ _ _ _ _ Hti Lp) as (ids & -> & _ & _ & Hn).
    exists (Ok ids), w', lg. rewrite exec_pbind, Ex. cbn [orFail snd fst pret exec app]. rewrite app_nil_r. split; [reflexivity|].
    do 2 (split; [assumption|]). split; [eapply pre_same; eassumption|].
    exists ids. split; [reflexivity|]. fold d in Hn. rewrite Hn, Ef. split.
    - apply Permutation_map, filter_perm. now apply Permutation_sym.
    - apply (sorted_filter _ (fun e => bytes_eqb (fst e) d)) in So. apply sorted_map.
      assert (Forall (fun e => fst e = d) (filter (fun e => bytes_eqb (fst e) d) es)) as Hall.
      { apply Forall_forall. intros e He. apply filter_In in He as [_ He]. now apply bytes_eqb_eq. }
      clear - So Hall. induction So as [|[a b] l H IH H1]; constructor; [now apply IH; inversion Hall|].
      inversion Hall as [|? ? H2 H3]; subst. cbn [fst] in H2. subst a. rewrite Forall_forall in *. intros [a' b'] He. specialize (H1 _ He). specialize (H3 _ He).
      cbn [fst] in H3. subst a'. cbn in H1. rewrite bytes_compare_refl in H1. cbn [snd]. now destruct (bytes_compare b b').
  Qed.

  (** ** Programs that use no table *)
  Lemma doesQ_quiet {A} (p : prog A) c (Q : res A -> idtable -> Prop) : quiet p ->
    (forall i, interns t0 i -> Q (fst (qrun i p)) (snd (qrun i p))) -> doesQ p c Q c.
  Proof.
    intros Hq HQ h w x (t & S & Hh) Hi. destruct (exec w x p) as [[r w'] lg] eqn:Ex.
    destruct (exec_quiet x p Hq w r w' lg Ex) as (A1 & A2 & A3 & A4 & A5). exists r, w', lg. split; [reflexivity|]. split; [exact A3|].
    split; [congruence|]. split.
    - eapply pre_same; try eassumption; [|congruence]. pose proof (sy_view _ _ _ _ _ _ S) as V. destruct A2 as (A2 & _). congruence.
    - specialize (HQ _ Hi). rewrite A1 in HQ. exact HQ.
  Qed.

  Definition wire_col (c : bool * bytes) : bytes := (if fst c then x01 else x00) :: snd c.

  Lemma encode_ids l c : Forall (known_id t0) l -> does (pEncodeIds l) c (Ok (map (fun i => wire_col (IsReserved i, idString t0 i)) l)) c.
  Proof.
    induction 1 as [|i l Hi Hl IH]; cbn [pEncodeIds map]; [apply does_ret|].
    eapply does_bind; [eapply does_name; eassumption|]. eapply does_bind; [exact IH|]. apply does_ret.
  Qed.

  Lemma encode_does cn ct p c : Forall (known_id t0) cn ->
    does (Encode {| ett_version := 1; ett_cols := cn; ett_types := ct; ett_key := p |}) c
      (Ok (x_egob_encode (wire_of (def_of t0 cn ct p)))) c.
  Proof.
    intros Hk. unfold Encode. cbn [ett_cols ett_version ett_types ett_key].
    eapply does_bind; [apply encode_ids; exact Hk|]. unfold wire_of, def_of. cbn [td_cols td_types td_key]. rewrite map_map. apply does_ret.
  Qed.

  Lemma decode_ids l : quiet (pDecodeIds (map wire_col l)) /\ forall i, idt_ok i ->
    exists cols i', qrun i (pDecodeIds (map wire_col l)) = (Ok cols, i') /\ interns i i' /\
      Forall2 (fun (c : bool * bytes) j => ID i' (snd c) (negb (fst c)) = (i', j)) l cols.
  Proof.
    induction l as [|[b n] l [IH1 IH2]].
    - split; [constructor|]. intros i K. exists [], i. repeat split; constructor.
    - cbn [map wire_col fst snd pDecodeIds]. replace (1 <? bz (if b then x01 else x00)) with false by (destruct b; reflexivity).
      replace (bz (if b then x01 else x00) =? 0) with (negb b) by (destruct b; reflexivity). split.
      + apply quiet_bind; [unfold pID; repeat constructor|]. intros i. apply quiet_bind; [exact IH1|]. intros r. constructor.
      + intros i K. unfold pID. unfold pbind at 1. cbn [pthen qrun pret]. destruct (ID i n (negb b)) as [i1 j] eqn:Ei. cbn [fst snd].
        pose proof (interns_ID i n (negb b)) as H1. rewrite Ei in H1. cbn [fst] in H1. destruct (interns_ok _ _ H1 K) as [K1 _].
        destruct (IH2 i1 K1) as (cols & i' & Hq & H2 & H3). exists (j :: cols), i'. split.
        * now rewrite (qrun_bind _ _ _ _ _ Hq).
        * split; [eapply interns_trans; eassumption|]. constructor; [|exact H3]. cbn [fst snd]. exact (ID_later _ _ _ _ _ _ K Ei H2).
  Qed.

  Lemma given_next {A} (p : prog A) c Q c1 : (is_i64 (c_next c) -> doesQ p c Q c1) -> doesQ p c Q c1.
  Proof.
    intros H h w x Hp. apply H; [|exact Hp]. destruct Hp as (t & S & Hh).
    pose proof (sys_sequences HX HG HL I i0 ths Hids HI _ _ _ _ S) as CO.
    destruct (rows_facts HX HG _ _ _ _ _ _ CO) as (Hr & _). rewrite (si_tid _ _ _ _ _ _ _ _ (ss_sequences _ _ HI)), (ho_sequences _ _ Hh) in Hr.
    destruct (Hr _ (or_introl eq_refl)) as [W _]. apply Forall_inv_tail, Forall_inv in W. exact W.
  Qed.

  (** ** The methods *)
  Definition unit_res (n : nout) : res unit := match n with NDone => Ok tt | NErr e => Err e | _ => Panic end.

  Ltac name := eapply doesQ_name; [eassumption|eassumption|eassumption|].

  Lemma create_database_does dn c : known_id t0 dn ->
    does (createDatabase I dn) c (unit_res (fst (create_database (idString t0 dn) c))) (snd (create_database (idString t0 dn) c)).
  Proof.
    intros Hk. unfold createDatabase. name. unfold create_database. destruct (fits (idString t0 dn)) eqn:Hf; cbn [negb].
    - pose proof (insert_database HX HG HL HF I i0 ths Hids HI t0 (idString t0 dn) c Hf) as H. destruct (has bytes_eqb _ _); exact H.
    - exact (insert_database_long HX HG HL I i0 ths Hids HI t0 _ c Hf).
  Qed.

  Lemma drop_database_does dn ifx c : known_id t0 dn ->
    does (dropDatabase I dn ifx) c (unit_res (fst (drop_database (idString t0 dn) ifx c))) (snd (drop_database (idString t0 dn) ifx c)).
  Proof.
    intros Hk. unfold dropDatabase. name. unfold drop_database. destruct (fits (idString t0 dn)) eqn:Hf; cbn [negb].
    - eapply does_bind; [exact (delete_database HX HG HL I i0 ths Hids HI t0 _ c Hf)|]. unfold orFail. cbn [snd fst].
      destruct (has bytes_eqb _ _) eqn:Hh; [apply does_ret|]. rewrite (without_none _ _ _ Hh), with_databases_same. destruct ifx; apply does_ret.
    - apply does_bind_panic. exact (delete_database_long HX HG HL I i0 ths Hids HI t0 _ c Hf).
  Qed.

  Lemma found_some {A} c e g (k : gostruct -> prog A) Q c1 : doesQ (k g) c Q c1 -> doesQ (do! x := found e (g, None) in k x) c Q c1.
  Proof. intros H. exact H. Qed.
  Lemma found_none {A} c e g (k : gostruct -> prog A) : does (do! x := found e (g, Some EOF) in k x) c (Err e) c.
  Proof. apply does_ret. Qed.

  Lemma create_schema_does dn sn c : known_id t0 dn -> known_id t0 sn ->
    let r := create_schema (idString t0 dn) (idString t0 sn) c in
    does (createSchema I dn sn) c (unit_res (fst r)) (snd r).
  Proof.
    intros Hk Hk2 r. subst r. unfold createSchema. name. unfold create_schema. destruct (fits (idString t0 dn)) eqn:Hf; cbn [negb].
    2: { apply does_bind_panic. exact (lookup_database_long HX HG HL I i0 ths Hids HI t0 _ c Hf). }
    eapply does_bind; [exact (lookup_database HX HG HL I i0 ths Hids HI t0 _ c Hf)|].
    destruct (has bytes_eqb _ _) eqn:Hh; cbn [negb]; [|apply found_none]. apply found_some. name. name.
    destruct (fits (idString t0 sn)) eqn:Hf2; cbn [negb].
    - pose proof (insert_schema HX HG HL HF I i0 ths Hids HI t0 (idString t0 dn) (idString t0 sn) c ltac:(now rewrite Hf, Hf2)) as H.
      destruct (has schema_eqb _ _); exact H.
    - refine (insert_schema_long HX HG HL I i0 ths Hids HI t0 _ _ c _). now rewrite Hf, Hf2.
  Qed.

  Lemma drop_schema_does dn sn ifx c : known_id t0 dn -> known_id t0 sn ->
    let r := drop_schema (idString t0 dn) (idString t0 sn) ifx c in
    does (dropSchema I dn sn ifx) c (unit_res (fst r)) (snd r).
  Proof.
    intros Hk Hk2 r. subst r. unfold dropSchema. name. name. unfold drop_schema. destruct (fits (idString t0 dn) && _) eqn:Hf; cbn [negb].
    - eapply does_bind; [exact (delete_schema HX HG HL I i0 ths Hids HI t0 _ _ c Hf)|]. unfold orFail. cbn [snd fst].
      destruct (has schema_eqb _ _) eqn:Hh; [apply does_ret|]. rewrite (without_none _ _ _ Hh), with_schemas_same. destruct ifx; apply does_ret.
    - apply does_bind_panic. exact (delete_schema_long HX HG HL I i0 ths Hids HI t0 _ _ c Hf).
  Qed.

  (** What a result of the engine is in the specification. *)
  Definition is_result {A} (f : A -> eout) (n : nout) (r : res A) (t : idtable) : Prop := agrees t (eresult f r) n.

  Lemma list_schemas_does dn c : known_id t0 dn ->
    let r := list_schemas (idString t0 dn) c in
    doesQ (listSchemas I dn) c (is_result ENames (fst r)) (snd r).
  Proof.
    intros Hk r. subst r. unfold listSchemas. name. unfold list_schemas. destruct (fits (idString t0 dn)) eqn:Hf; cbn [negb].
    2: { eapply doesQ_conseq; [|apply does_bind_panic; exact (lookup_database_long HX HG HL I i0 ths Hids HI t0 _ c Hf)]. intros ? ? _ ->. reflexivity. }
    eapply doesQ_bind; [exact (lookup_database HX HG HL I i0 ths Hids HI t0 _ c Hf)|].
    destruct (has bytes_eqb _ _) eqn:Hh; cbn [negb].
    2: { eapply doesQ_conseq; [|apply found_none]. intros ? ? _ ->. reflexivity. }
    apply found_some. name. eapply doesQ_conseq; [|exact (select_schemas dn c Hk Hf)].
    intros r t _ (ids & -> & H1 & H2). exists ids. auto.
  Qed.

  Lemma list_databases_does c : doesQ (listDatabases I) c (is_result ENames (NNames (c_databases c))) c.
  Proof.
    eapply doesQ_conseq; [|exact (list_databases c)]. intros r t _ (ids & -> & H1 & H2). exists ids. auto.
  Qed.

  Lemma open_table_does tn c : known_id t0 (tn_database tn) -> known_id t0 (tn_schema tn) -> known_id t0 (tn_table tn) ->
    let r := open_table (idString t0 (tn_database tn)) (idString t0 (tn_schema tn)) (idString t0 (tn_table tn)) c in
    doesQ (openTable I tn) c (is_result (fun r => ETable (fst r) (snd r)) (fst r)) (snd r).
  Proof.
    intros Hk1 Hk2 Hk3 r. subst r. unfold openTable. name. name. name. unfold open_table.
    destruct (fits (idString t0 (tn_database tn)) && _ && _) eqn:Hf; cbn [negb].
    2: { eapply doesQ_conseq; [|apply does_bind_panic; exact (lookup_table_long HX HG HL I i0 ths Hids HI t0 _ _ _ c Hf)]. intros ? ? _ ->. reflexivity. }
    eapply doesQ_bind; [exact (lookup_table HX HG HL I i0 ths Hids HI t0 _ _ _ c Hf)|].
    destruct (find_table _ _) as [[id td]|].
    2: { eapply doesQ_conseq; [|apply found_none]. intros ? ? _ ->. reflexivity. }
    apply found_some. cbn [fst snd]. change (bytesField _ 4) with (x_egob_encode (wire_of td)). change (intField _ 3) with id.
    unfold DecodeTableType. rewrite HE. destruct (decode_ids (td_cols td)) as [Hq Hr]. unfold wire_of at 1. cbn [ewt_cols].
    change (map (fun c0 : bool * bytes => _) (td_cols td)) with (map wire_col (td_cols td)).
    apply doesQ_quiet.
    - apply quiet_bind; [|constructor]. apply quiet_bind; [exact Hq|constructor].
    - intros i Hi. destruct (interns_ok _ _ Hi (t0_ok i0 ths Hids t0 Ht0)) as [K _]. destruct (Hr i K) as (cols & i' & Q1 & Q2 & Q3).
      erewrite qrun_bind; [|erewrite qrun_bind; [|exact Q1]; reflexivity]. cbn [qrun pret fst snd].
      exists cols. split; [reflexivity|exact Q3].
  Qed.

  Lemma create_table_does tn cn ct p c : known_id t0 (tn_database tn) -> known_id t0 (tn_schema tn) -> known_id t0 (tn_table tn) ->
    Forall (known_id t0) cn ->
    let r := create_table (idString t0 (tn_database tn)) (idString t0 (tn_schema tn)) (idString t0 (tn_table tn)) (def_of t0 cn ct p) c in
    does (createTable I tn cn ct p) c (unit_res (fst r)) (snd r).
  Proof.
    intros Hk1 Hk2 Hk3 Hk4 r. subst r. unfold createTable. name. name. unfold create_table.
    set (d := idString t0 (tn_database tn)). set (s := idString t0 (tn_schema tn)). set (n := idString t0 (tn_table tn)). set (td := def_of t0 cn ct p).
    destruct (fits d && fits s) eqn:Hf; cbn [negb].
    2: { apply does_bind_panic. exact (lookup_schema_long HX HG HL I i0 ths Hids HI t0 _ _ c Hf). }
    eapply does_bind; [exact (lookup_schema HX HG HL I i0 ths Hids HI t0 _ _ c Hf)|].
    destruct (has schema_eqb _ _); cbn [negb]; [|apply found_none]. apply found_some.
    eapply does_bind; [apply encode_does; exact Hk4|]. fold td.
    apply given_next. intros Hn.
    eapply does_bind; [exact (next_id c)|]. name. name. name. fold d s n.
    destruct (fits n && def_fits td) eqn:Hf2; cbn [negb].
    - pose proof (insert_table HX HG HL HF I i0 ths Hids HI t0 d s n (c_next c) td (with_next c (i64 (c_next c + 1)))
        ltac:(now rewrite <- andb_assoc, Hf2, Hf) Hn) as H. cbn [with_next c_tables] in H.
      destruct (has table_eqb _ _); exact H.
    - refine (insert_table_long HX HG HL I i0 ths Hids HI t0 d s n (c_next c) td _ _). now rewrite <- andb_assoc, Hf2, Hf.
  Qed.
End Calls.
