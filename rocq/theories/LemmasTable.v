(** Contents of tables. *)

From Verif Require Import ModelStore SpecTable LemmasBase LemmasKey LemmasValue LemmasTree LemmasStore LemmasWorld
  LemmasHistory LemmasSerial.

Lemma toRelationId_small tid : is_u32 tid -> toRelationId tid = tid * 2 ^ 32.
Proof. unfold is_u32, toRelationId, u64. intros H. apply Z.mod_small. lia. Qed.

Lemma table_types_relation : tableTypesRelation = 0.
Proof. reflexivity. Qed.

(** Key of a table type row. *)
Definition tidkey (tid : Z) : bytes := encodeKeyValue [] (VInt tid) false.

Lemma tidkey_MakeKey tid r : MakeKey tableTypesKey (VInt tid :: r) = Some (tidkey tid).
Proof.
  change tableTypesKey with (keys_of [(0%nat, false)]). rewrite MakeKey_cols by reflexivity.
  simpl nth_error. cbn [keys_of map]. rewrite MakeKey_nil. now rewrite app_nil_r.
Qed.

Lemma tidkey_inj a b : is_i64 a -> is_i64 b -> tidkey a = tidkey b -> a = b.
Proof.
  intros Ha Hb H.
  assert (forall z, is_i64 z -> Forall wf_value [VInt z]) as W by (intros z Hz; constructor; [exact Hz|constructor]).
  assert (forall z, key_fits [(0%nat, false)] [VInt z]) as F.
  { intros z c d [[= <- <-]|[]]. simpl. split; [lia|reflexivity]. }
  pose proof (proj1 (key_equal_lemma [(0%nat, false)] [VInt a] [VInt b] (tidkey a) (tidkey b)
    (F a) (F b) (W a Ha) (W b Hb) (tidkey_MakeKey a []) (tidkey_MakeKey b [])) H 0%nat false (or_introl eq_refl)) as K.
  simpl in K. destruct K as [K|(p & q & K & _)]; [now injection K|discriminate].
Qed.

(** Adding items that were not there. *)
Inductive added : tree -> list item -> tree -> Prop :=
  | added_nil t : added t [] t
  | added_cons t it its t' :
      t_has t it = false -> added (t_replace_or_insert t it) its t' -> added t (it :: its) t'.

Lemma insert_perm t it : t_has t it = false -> Permutation (t_replace_or_insert t it) (it :: t).
Proof.
  rewrite t_has_false. induction t as [|x t IH]; intros H; simpl; [reflexivity|].
  rewrite !lessItems_icmp, (icmp_antisym x it). destruct (icmp x it) eqn:E; simpl.
  - exfalso. exact (H x (or_introl eq_refl) E).
  - rewrite IH; [apply perm_swap|]. intros y Hy. apply H. now right.
  - reflexivity.
Qed.

Lemma replace_perm t it old : sorted t -> t_get t it = Some old ->
  exists rest, Permutation t (old :: rest) /\ Permutation (t_replace_or_insert t it) (it :: rest) /\
    Permutation (fst (t_delete t it)) rest.
Proof.
  induction t as [|x t IH]; simpl; [discriminate|]. intros S H. apply sorted_inv in S as [S L].
  rewrite same_item_icmp in *. rewrite !lessItems_icmp, (icmp_antisym x it).
  destruct (icmp x it) eqn:E; simpl.
  - injection H as <-. exists t. split; [reflexivity|]. split; reflexivity.
  - destruct (IH S H) as (rest & P1 & P2 & P3). exists (x :: rest).
    destruct (t_delete t it) as [t' ok]. simpl in *.
    split; [rewrite P1; apply perm_swap|]. split; [rewrite P2; apply perm_swap|now rewrite P3].
  - exfalso. apply t_get_Some in H as [Hy Ey]. pose proof (L _ Hy) as A.
    rewrite (icmp_eq_r _ _ _ Ey), E in A. discriminate.
Qed.

Lemma perm_filter {A} (f : A -> bool) l1 l2 : Permutation l1 l2 -> Permutation (filter f l1) (filter f l2).
Proof.
  induction 1 as [|x l1 l2 _ IH|x y l|l1 l2 l3 _ IH1 _ IH2]; simpl.
  - constructor.
  - destruct (f x); [now constructor|exact IH].
  - destruct (f x), (f y); try reflexivity. apply perm_swap.
  - etransitivity; eassumption.
Qed.

Lemma added_sorted t its t' : added t its t' -> sorted t -> sorted t'.
Proof. induction 1 as [|t it its t' H A IH]; intros S; [exact S|]. apply IH. now apply insert_sorted. Qed.

Lemma added_perm t its t' : added t its t' -> Permutation t' (its ++ t).
Proof.
  induction 1 as [|t it its t' H A IH]; [reflexivity|].
  rewrite IH. rewrite (insert_perm _ _ H). simpl. symmetry. apply Permutation_middle.
Qed.

Lemma added_other t its t' rel : added t its t' -> Forall (fun it => it_rel it <> rel) its ->
  of_rel rel t' = of_rel rel t.
Proof.
  induction 1 as [|t it its t' H A IH]; intros F; [reflexivity|].
  inversion F; subst. rewrite IH by assumption. now apply insert_other.
Qed.

Lemma rows_in_of_rel t tid : rows_in t tid = map it_row (of_rel (tid * 2 ^ 32) t).
Proof. reflexivity. Qed.

(** What the calls do, by value. *)
Section Effects.
  Context {X : FloatLib} {L : CaseLib} {G : GobLib}.

  Definition tyitem (tid : Z) (wt : wiretype) : item :=
    {| it_rel := 0; it_key := tidkey tid; it_row := [VInt tid; VBytes (x_gob_encode wt)] |}.

  Definition types_ok (t : tree) : Prop :=
    forall it, In it t -> it_rel it = 0 -> exists tid i0 ty, EngineTableId <= tid < 2 ^ 32 /\ it = tyitem tid (toWire i0 ty).

  Lemma u32_i64 z : is_u32 z -> is_i64 z.
  Proof. unfold is_u32, is_i64. lia. Qed.
  Lemma engine_i64 z : EngineTableId <= z < 2 ^ 32 -> is_i64 z.
  Proof. unfold EngineTableId, is_i64. lia. Qed.

  Lemma getTableType_eff tid t i r t' i' :
    GobLib_ok G -> is_u32 tid -> sorted t -> types_ok t ->
    vGetTableType tid (t, i) = (r, (t', i')) ->
    t' = t /\
    match r with
    | Ok None => i' = i /\ forall wt, ~ In (tyitem tid wt) t
    | Ok (Some ty) => exists wt, In (tyitem tid wt) t /\ fromWire i wt = Some (i', ty)
    | Err _ => False
    | Panic => exists wt, In (tyitem tid wt) t /\ fromWire i wt = None
    end.
  Proof.
    intros HG Hu S T. unfold vGetTableType, rowToItem. rewrite table_types_relation, tidkey_MakeKey.
    unfold vlift, vbind, vret, vread. cbn [fst].
    destruct (t_get t _) as [it|] eqn:E.
    - apply t_get_Some in E as [Hi Ei]. apply icmp_eq in Ei as [E1 E2]. simpl in E1, E2.
      destruct (T it Hi E1) as (tid0 & j0 & ty0 & Ht & ->). set (wt := toWire j0 ty0) in *. simpl in E2.
      apply tidkey_inj in E2; [|apply engine_i64; exact Ht|apply u32_i64; exact Hu]. subst tid0.
      cbn [tyitem it_row]. rewrite HG. unfold vgetI, vputI, vpanic. cbn [snd].
      destruct (fromWire i wt) as [[i1 ty]|] eqn:F; intros [= <- <- <-]; (split; [reflexivity|]); eauto.
    - intros [= <- <- <-]. split; [reflexivity|]. split; [reflexivity|].
      intros wt Hi. apply (proj1 (t_get_None _ _) E _ Hi). apply icmp_eq. now split.
  Qed.

  Lemma fromWire_fields i wt i' ty : fromWire i wt = Some (i', ty) ->
    tt_types ty = wt_types wt /\ tt_key ty = wt_key wt /\ tt_version ty = wt_version wt.
  Proof.
    unfold fromWire. destruct (fromWireIds i _) as [[i1 [|d [|s [|n cols]]]]|]; try discriminate.
    intros [= <- <-]. auto.
  Qed.

  Lemma list_eqb_eq {A} (e : A -> A -> bool) : (forall a b, e a b = true <-> a = b) ->
    forall l1 l2, list_eqb e l1 l2 = true <-> l1 = l2.
  Proof.
    intros H. induction l1 as [|a l1 IH]; intros [|b l2]; simpl; try (split; [reflexivity|reflexivity] || (split; discriminate)).
    rewrite andb_true_iff, H, IH. split; [intros [-> ->]; reflexivity|intros [= -> ->]; auto].
  Qed.

  Lemma coltype_eqb_eq a b : coltype_eqb a b = true <-> a = b.
  Proof.
    unfold coltype_eqb. destruct a as [t1 s1 f1 n1], b as [t2 s2 f2 n2]. simpl.
    rewrite !andb_true_iff, Z.eqb_eq, !Bool.eqb_true_iff.
    assert (valtype_eqb t1 t2 = true <-> t1 = t2) as -> by (destruct t1, t2; simpl; split; congruence).
    split; [intros [[[-> ->] ->] ->]; reflexivity|intros [= -> -> -> ->]; auto].
  Qed.

  Lemma tablename_eqb_eq a b : tablename_eqb a b = true <-> a = b.
  Proof.
    unfold tablename_eqb. destruct a, b; simpl. rewrite !andb_true_iff, !Z.eqb_eq.
    split; [intros [[-> ->] ->]; reflexivity|intros [= -> -> ->]; auto].
  Qed.

  Lemma openTable_eff tid tn cn ct p t i r t' i' :
    GobLib_ok G -> is_u32 tid -> sorted t -> types_ok t ->
    vOpenTable tid tn cn ct p (t, i) = (r, (t', i')) ->
    t' = t /\
    match r with
    | Ok tb => exists wt, In (tyitem tid wt) t /\ fromWire i wt = Some (i', tb_tt tb) /\ tb_tid tb = tid /\
        tt_name (tb_tt tb) = tn /\ tt_cols (tb_tt tb) = cn /\ tt_types (tb_tt tb) = ct /\ tt_key (tb_tt tb) = p
    | Err _ => False
    | Panic => forall wt ty, In (tyitem tid wt) t -> fromWire i wt = Some (i', ty) ->
        ~ (tt_name ty = tn /\ tt_cols ty = cn /\ tt_types ty = ct /\ tt_key ty = p)
    end.
  Proof.
    intros HG Hu S T E. unfold vOpenTable, vbind in E.
    destruct (vGetTableType tid (t, i)) as [r1 [t1 i1]] eqn:E1.
    apply (getTableType_eff tid t i r1 t1 i1 HG Hu S T) in E1 as [-> E1].
    assert (forall wt wt', In (tyitem tid wt) t -> In (tyitem tid wt') t -> wt = wt') as U.
    { intros wt wt' H1 H2. assert (tyitem tid wt = tyitem tid wt') as K.
      { apply (sorted_unique t); try assumption. apply icmp_eq. now split. }
      pose proof (f_equal it_row K) as K'. simpl in K'. injection K' as K'.
      apply (f_equal x_gob_decode) in K'. rewrite !HG in K'. now injection K'. }
    destruct r1 as [[ty|]|e|].
    - destruct E1 as (wt & Hw & Fw).
      destruct (tablename_eqb tn (tt_name ty)) eqn:C1; simpl in E.
      2:{ injection E as <- <- <-. split; [reflexivity|]. intros wt' ty' H1 H2 (N & _).
          rewrite (U wt' wt H1 Hw), Fw in H2. injection H2 as <-. rewrite <- N in C1.
          rewrite (proj2 (tablename_eqb_eq _ _) eq_refl) in C1. discriminate. }
      destruct (list_eqb Z.eqb cn (tt_cols ty)) eqn:C2; simpl in E.
      2:{ injection E as <- <- <-. split; [reflexivity|]. intros wt' ty' H1 H2 (_ & N & _).
          rewrite (U wt' wt H1 Hw), Fw in H2. injection H2 as <-. rewrite <- N in C2.
          rewrite (proj2 (list_eqb_eq _ Z.eqb_eq _ _) eq_refl) in C2. discriminate. }
      destruct (list_eqb coltype_eqb ct (tt_types ty)) eqn:C3; simpl in E.
      2:{ injection E as <- <- <-. split; [reflexivity|]. intros wt' ty' H1 H2 (_ & _ & N & _).
          rewrite (U wt' wt H1 Hw), Fw in H2. injection H2 as <-. rewrite <- N in C3.
          rewrite (proj2 (list_eqb_eq _ coltype_eqb_eq _ _) eq_refl) in C3. discriminate. }
      destruct (list_eqb Z.eqb p (tt_key ty)) eqn:C4; simpl in E.
      2:{ injection E as <- <- <-. split; [reflexivity|]. intros wt' ty' H1 H2 (_ & _ & _ & N).
          rewrite (U wt' wt H1 Hw), Fw in H2. injection H2 as <-. rewrite <- N in C4.
          rewrite (proj2 (list_eqb_eq _ Z.eqb_eq _ _) eq_refl) in C4. discriminate. }
      injection E as <- <- <-. split; [reflexivity|]. exists wt. simpl.
      apply tablename_eqb_eq in C1. apply (list_eqb_eq _ Z.eqb_eq) in C2.
      apply (list_eqb_eq _ coltype_eqb_eq) in C3. apply (list_eqb_eq _ Z.eqb_eq) in C4. auto 10.
    - destruct E1 as [-> N]. injection E as <- <- <-. split; [reflexivity|]. intros wt ty H. now apply N in H.
    - contradiction.
    - destruct E1 as (wt & Hw & Fw). injection E as <- <- <-. split; [reflexivity|].
      intros wt' ty' H1 H2. rewrite (U wt' wt H1 Hw) in H2.
      congruence.
  Qed.

  Lemma tyitem_unique t tid wt wt' : GobLib_ok G -> sorted t ->
    In (tyitem tid wt) t -> In (tyitem tid wt') t -> wt = wt'.
  Proof.
    intros HG S H1 H2. assert (tyitem tid wt = tyitem tid wt') as K.
    { apply (sorted_unique t); try assumption. apply icmp_eq. now split. }
    pose proof (f_equal it_row K) as K'. simpl in K'. injection K' as K'.
    apply (f_equal x_gob_decode) in K'. rewrite !HG in K'. now injection K'.
  Qed.

  Lemma createTable_eff tid tn cn ct p t i r t' i' :
    GobLib_ok G -> is_u32 tid -> sorted t -> types_ok t ->
    vCreateTable tid tn cn ct p (t, i) = (r, (t', i')) ->
    (t' = t /\ r <> Ok tt /\
     (r = Panic <-> tid < EngineTableId \/ (exists wt, In (tyitem tid wt) t) \/ length cn <> length ct \/ p = None \/
        (exists k, p = Some k /\ badRowId 0 cn ct k = false /\ existsb (fun ck => zlen cn <=? ckColumn ck) k = true))) \/
    (r = Ok tt /\ EngineTableId <= tid /\ i' = i /\ (forall wt, ~ In (tyitem tid wt) t) /\ length cn = length ct /\
     exists k, p = Some k /\ badRowId 0 cn ct k = false /\ existsb (fun ck => zlen cn <=? ckColumn ck) k = false /\
       t' = t_replace_or_insert t (tyitem tid (toWire i
              {| tt_version := 1; tt_name := tn; tt_cols := cn; tt_types := ct; tt_key := k |}))).
  Proof.
    intros HG Hu S T E. unfold vCreateTable in E. destruct (Z.ltb_spec tid EngineTableId).
    { injection E as <- <- <-. left. split; [reflexivity|]. split; [discriminate|]. tauto. }
    unfold vbind at 1 in E. destruct (vGetTableType tid (t, i)) as [r1 [t1 i1]] eqn:E1.
    apply (getTableType_eff tid t i r1 t1 i1 HG Hu S T) in E1 as [-> E1].
    destruct r1 as [[ty|]|e|].
    - destruct E1 as (wt & Hw & Fw). injection E as <- <- <-. left. split; [reflexivity|]. split; [discriminate|]. split; eauto.
    - destruct E1 as [-> N].
      assert (zlen cn =? zlen ct = true <-> length cn = length ct) as Hz by (rewrite Z.eqb_eq; unfold zlen; lia).
      destruct (zlen cn =? zlen ct) eqn:Ez; simpl in E.
      2:{ injection E as <- <- <-. left. split; [reflexivity|]. split; [discriminate|]. split; [|reflexivity].
          intros _. right; right; left. intros K. apply Hz in K. discriminate. }
      pose proof (proj1 Hz eq_refl) as Hz'. destruct p as [k|].
      2:{ injection E as <- <- <-. left. split; [reflexivity|]. split; [discriminate|]. split; [tauto|reflexivity]. }
      destruct (badRowId 0 cn ct k) eqn:Eb.
      { injection E as <- <- <-. left. split; [reflexivity|]. split; [discriminate|]. split; [discriminate|].
        intros [K|[(wt & K)|[K|[K|(k' & [= <-] & K & _)]]]]; try lia; try contradiction; try discriminate; try congruence.
        now apply N in K. }
      destruct (existsb _ k) eqn:Ee.
      { injection E as <- <- <-. left. split; [reflexivity|]. split; [discriminate|]. split; [eauto 10|reflexivity]. }
      right. unfold vSetTableType, vbind, vgetI, vlift, rowToItem in E.
      rewrite table_types_relation, tidkey_MakeKey in E. unfold vret, vread, vwrite in E. cbn [fst snd] in E.
      injection E as <- <- <-. do 5 (split; [first [reflexivity|assumption]|]). exists k. auto.
    - contradiction.
    - destruct E1 as (wt & Hw & Fw). injection E as <- <- <-. left. split; [reflexivity|]. split; [discriminate|]. split; eauto.
  Qed.

  Lemma dropTable_eff tid t i r t' i' :
    GobLib_ok G -> is_u32 tid -> sorted t -> types_ok t ->
    vDropTable tid (t, i) = (r, (t', i')) ->
    (t' = t /\ r = Panic /\ forall wt, In (tyitem tid wt) t -> fromWire i wt = None) \/
    (r = Ok tt /\ (exists wt ty, In (tyitem tid wt) t /\ fromWire i wt = Some (i', ty)) /\
     t' = fst (t_delete t (keyToItem 0 (tidkey tid)))).
  Proof.
    intros HG Hu S T E. unfold vDropTable, vbind at 1 in E.
    destruct (vGetTableType tid (t, i)) as [r1 [t1 i1]] eqn:E1.
    apply (getTableType_eff tid t i r1 t1 i1 HG Hu S T) in E1 as [-> E1].
    destruct r1 as [[ty|]|e|].
    - destruct E1 as (wt & Hw & Fw). right.
      unfold vDeleteTableType, vbind, vlift, rowToItem in E. rewrite table_types_relation, tidkey_MakeKey in E.
      unfold vret, vread, vwrite in E. cbn [fst snd] in E.
      assert (forall r0 : row, t_delete t {| it_rel := 0; it_key := tidkey tid; it_row := r0 |} =
                t_delete t (keyToItem 0 (tidkey tid))) as Eq.
      { intros r0. clear. induction t as [|y t IH]; simpl; [reflexivity|]. rewrite IH. reflexivity. }
      rewrite !Eq, delete_ok in E.
      rewrite (proj2 (t_has_true _ _)) in E.
      2:{ exists (tyitem tid wt). split; [exact Hw|]. apply icmp_eq. now split. }
      injection E as <- <- <-. split; [reflexivity|]. split; [eauto|reflexivity].
    - destruct E1 as [-> N]. injection E as <- <- <-. left. split; [reflexivity|]. split; [reflexivity|].
      intros wt K. now apply N in K.
    - contradiction.
    - destruct E1 as (wt & Hw & Fw). injection E as <- <- <-. left. split; [reflexivity|]. split; [reflexivity|].
      intros wt' K. now rewrite (tyitem_unique t tid wt' wt HG S K Hw).
  Qed.

  (** The item a row becomes. *)
  Definition makes (tb : table) (r : row) (it : item) : Prop :=
    ConvertRow (tt_types (tb_tt tb)) r = Ok (it_row it) /\ it_rel it = toRelationId (tb_tid tb) /\
    MakeKey (tt_key (tb_tt tb)) (it_row it) = Some (it_key it).

  Lemma insertRows_eff tb rs : forall t i r t' i',
    vInsertRows tb rs (t, i) = (r, (t', i')) ->
    i' = i /\ exists rs1 rs2 its, rs = rs1 ++ rs2 /\ Forall2 (makes tb) rs1 its /\ added t its t' /\
    match r with
    | Ok _ => rs2 = []
    | Err e => exists bad rs3, rs2 = bad :: rs3 /\
        (ConvertRow (tt_types (tb_tt tb)) bad = Err e \/
         (e = ErrDuplicateKey /\ exists it, makes tb bad it /\ t_has t' it = true))
    | Panic => exists bad rs3, rs2 = bad :: rs3 /\
        (ConvertRow (tt_types (tb_tt tb)) bad = Panic \/
         exists r', ConvertRow (tt_types (tb_tt tb)) bad = Ok r' /\ MakeKey (tt_key (tb_tt tb)) r' = None)
    end.
  Proof.
    induction rs as [|x rs IH]; intros t i r t' i' E.
    - injection E as <- <- <-. split; [reflexivity|]. exists [], [], [].
      split; [reflexivity|]. split; [constructor|]. split; [constructor|reflexivity].
    - simpl in E. unfold vbind, vliftRes in E.
      destruct (ConvertRow (tt_types (tb_tt tb)) x) as [x'|e|] eqn:Ec.
      2,3: injection E as <- <- <-; split; [reflexivity|]; exists [], (x :: rs), [];
        split; [reflexivity|]; split; [constructor|]; split; [constructor|]; eauto 6.
      unfold vlift, rowToItem in E. destruct (MakeKey (tt_key (tb_tt tb)) x') as [k|] eqn:Ek.
      2:{ injection E as <- <- <-; split; [reflexivity|]; exists [], (x :: rs), [];
          split; [reflexivity|]; split; [constructor|]; split; [constructor|];
          exists x, rs; split; [reflexivity|]; right; eauto. }
      unfold vret, vread, vwrite in E. cbn [fst snd] in E. set (it := {| it_rel := _; it_key := k; it_row := x' |}) in *.
      assert (makes tb x it) as Hm by (split; [exact Ec|split; [reflexivity|exact Ek]]).
      destruct (t_has t it) eqn:Eh.
      { injection E as <- <- <-; split; [reflexivity|]; exists [], (x :: rs), [];
          split; [reflexivity|]; split; [constructor|]; split; [constructor|].
        exists x, rs. split; [reflexivity|]. right. eauto. }
      apply IH in E as [-> (rs1 & rs2 & its & -> & F & A & R)].
      split; [reflexivity|]. exists (x :: rs1), rs2, (it :: its).
      split; [reflexivity|]. split; [now constructor|]. split; [now constructor|exact R].
  Qed.

  Lemma delete_eff tb k t i r t' i' :
    vDelete tb k (t, i) = (r, (t', i')) ->
    i' = i /\ t' = fst (t_delete t (keyToItem (toRelationId (tb_tid tb)) k)) /\
    r = if t_has t (keyToItem (toRelationId (tb_tid tb)) k) then Ok tt else Panic.
  Proof.
    unfold vDelete, vbind, vread, vwrite, vret, vpanic. cbn [fst snd]. rewrite delete_ok.
    destruct (t_has _ _); intros [= <- <- <-]; auto.
  Qed.

  Lemma update_eff tb k cols vals t i r t' i' :
    sorted t ->
    vUpdate tb k cols vals (t, i) = (r, (t', i')) ->
    let kit := keyToItem (toRelationId (tb_tid tb)) k in
    i' = i /\
    ((t' = t /\ r = Panic /\
      (length cols <> length vals \/ t_has t kit = false \/
       exists x, t_get t kit = Some x /\
         (setColumns (it_row x) cols vals = None \/
          exists r', setColumns (it_row x) cols vals = Some r' /\
            ColumnKeyUpdated (tt_key (tb_tt tb)) cols = false /\ MakeKey (tt_key (tb_tt tb)) r' = None))) \/
     exists x r1, length cols = length vals /\ t_get t kit = Some x /\ setColumns (it_row x) cols vals = Some r1 /\
       ((ColumnKeyUpdated (tt_key (tb_tt tb)) cols = true /\
         vInsertRows tb [r1] (fst (t_delete t kit), i) = (r, (t', i'))) \/
        (ColumnKeyUpdated (tt_key (tb_tt tb)) cols = false /\ r = Ok tt /\
         exists k', MakeKey (tt_key (tb_tt tb)) r1 = Some k' /\
           t' = t_replace_or_insert t {| it_rel := toRelationId (tb_tid tb); it_key := k'; it_row := r1 |}))).
  Proof.
    intros S E kit. unfold vUpdate in E.
    assert (zlen cols =? zlen vals = true <-> length cols = length vals) as Hz by (rewrite Z.eqb_eq; unfold zlen; lia).
    destruct (zlen cols =? zlen vals); cbn [negb] in E.
    2:{ injection E as <- <- <-. split; [reflexivity|]. left. split; [reflexivity|]. split; [reflexivity|].
        left. intros K. apply Hz in K. discriminate. }
    pose proof (proj1 Hz eq_refl) as Hz'. unfold vbind at 1, vread at 1 in E. cbn [fst] in E. fold kit in E.
    destruct (t_get t kit) as [x|] eqn:Eg.
    2:{ injection E as <- <- <-. split; [reflexivity|]. left. split; [reflexivity|]. split; [reflexivity|].
        right; left. unfold t_has. now rewrite Eg. }
    unfold vbind at 1, vlift at 1 in E. destruct (setColumns (it_row x) cols vals) as [r1|] eqn:Es.
    2:{ injection E as <- <- <-. split; [reflexivity|]. left. split; [reflexivity|]. split; [reflexivity|]. eauto 6. }
    unfold vret at 1 in E. destruct (ColumnKeyUpdated (tt_key (tb_tt tb)) cols) eqn:Eu.
    - unfold vbind at 1 in E. destruct (vDelete tb k (t, i)) as [r2 [t2 i2]] eqn:Ed.
      apply delete_eff in Ed as (-> & -> & ->). fold kit in E.
      rewrite (proj2 (t_has_true t kit)) in E by (exists x; now apply t_get_Some).
      pose proof E as E'. apply insertRows_eff in E' as [-> _]. split; [reflexivity|].
      right. exists x, r1. do 3 (split; [assumption||reflexivity|]). left. split; [reflexivity|exact E].
    - unfold rowToItem in E. destruct (MakeKey (tt_key (tb_tt tb)) r1) as [k'|] eqn:Ek.
      + unfold vlift, vbind, vret, vread, vwrite in E. cbn [fst snd] in E. injection E as <- <- <-.
        split; [reflexivity|]. right. exists x, r1. do 3 (split; [assumption||reflexivity|]). right.
        split; [reflexivity|]. split; [reflexivity|]. eauto.
      + injection E as <- <- <-. split; [reflexivity|]. left. split; [reflexivity|]. split; [reflexivity|].
        right; right. exists x. split; [reflexivity|]. right. eauto.
  Qed.
End Effects.

Lemma convert_row_good {X : FloatLib} cts r nrow :
  FloatLib_ok X -> Forall (fun ct => is_u32 (ct_size ct)) cts -> Forall wf_value r ->
  ConvertRow cts r = Ok nrow ->
  length nrow = length cts /\ Forall wf_value nrow /\ Forall2 storable cts nrow.
Proof.
  intros HX Hu Hw E. apply convert_row_lemma in E as (Hl & Hn & H1 & H2).
  assert (forall i ct v, nth_error cts i = Some ct -> nth_error nrow i = Some v -> wf_value v /\ storable ct v) as K.
  { intros i ct v Hc Hv.
    assert (is_u32 (ct_size ct)) as Hs by (apply (proj1 (Forall_forall _ _) Hu ct); eapply nth_error_In; exact Hc).
    destruct (nth_error r i) as [u|] eqn:Er.
    - destruct (H1 i ct u Hc Er) as (w & Ew & Ec). assert (w = v) as -> by congruence.
      assert (wf_value u) as Wu by (apply (proj1 (Forall_forall _ _) Hw u); eapply nth_error_In; exact Er).
      destruct (match v with VString s => 2 ^ 32 <=? zlen s | VBytes s => 2 ^ 32 <=? zlen s | _ => false end) eqn:Eb.
      + destruct v; try discriminate; apply Z.leb_le in Eb; (split; [exact I|]); right; right; eauto.
      + destruct (convert_conforms_lemma ct u v HX Hs Wu) as (A & W & _).
        * intros s [-> | ->]; apply Z.leb_gt in Eb; exact Eb.
        * exact Ec.
        * split; [exact W|]. right; left. exact A.
    - rewrite H2 in Hv. 2:{ apply nth_error_None in Er. split; [exact Er|]. apply nth_error_Some. congruence. }
      injection Hv as <-. split; [exact I|]. now left. }
  split; [exact Hn|]. split.
  - apply Forall_forall. intros v Hv. apply In_nth_error in Hv as [i Hi].
    destruct (nth_error cts i) as [ct|] eqn:Ec; [exact (proj1 (K i ct v Ec Hi))|].
    apply nth_error_None in Ec. assert (i < length nrow)%nat by (apply nth_error_Some; congruence). lia.
  - clear - K Hn. revert nrow Hn K. induction cts as [|ct cts IH]; intros [|v nrow] Hn K; try discriminate; constructor.
    + exact (proj2 (K 0%nat ct v eq_refl eq_refl)).
    + apply IH; [now injection Hn|]. intros i c w Hc Hw. exact (K (S i) c w Hc Hw).
Qed.

Lemma setColumn_length r c v r' : setColumn r c v = Some r' -> length r' = length r.
Proof.
  unfold setColumn. destruct ((0 <=? c) && (c <? zlen r)) eqn:E; [|discriminate].
  intros H. apply (f_equal (option_map (@length value))) in H. cbn [option_map] in H.
  assert (forall a b : nat, Some a = Some b -> a = b) as I by congruence. apply I in H. rewrite <- H. clear H I.
  unfold zlen in E. rewrite app_length. cbn [length]. rewrite firstn_length, skipn_length. lia.
Qed.

Lemma Forall_part {A} (P : A -> Prop) n l : Forall P l -> Forall P (firstn n l) /\ Forall P (skipn n l).
Proof.
  intros H. rewrite <- (firstn_skipn n l) in H. now apply Forall_app in H.
Qed.

Lemma setColumns_spec cols : forall r vals r', setColumns r cols vals = Some r' ->
  length r' = length r /\ r' = assign r cols vals /\
  (Forall wf_value r -> Forall wf_value vals -> Forall wf_value r').
Proof.
  induction cols as [|c cols IH]; intros r vals r' E; simpl in *.
  - injection E as <-. auto.
  - destruct vals as [|v vals]; [injection E as <-; auto|].
    destruct (setColumn r c v) as [r1|] eqn:E1; [|discriminate].
    apply IH in E as (A & B & C). pose proof (setColumn_length _ _ _ _ E1) as E2.
    unfold setColumn in E1. destruct ((0 <=? c) && (c <? zlen r)); [|discriminate]. injection E1 as <-.
    split; [congruence|]. split; [exact B|]. intros Hr Hv. inversion Hv; subst. apply C; [|assumption].
    apply Forall_app. split; [exact (proj1 (Forall_part _ _ _ Hr))|].
    constructor; [assumption|exact (proj2 (Forall_part _ (S (Z.to_nat c)) _ Hr))].
Qed.

Lemma setColumns_iff cols : forall r vals, length cols = length vals ->
  (exists r', setColumns r cols vals = Some r') <-> Forall (fun c => 0 <= c < zlen r) cols.
Proof.
  induction cols as [|c cols IH]; intros r vals Hl; simpl.
  - split; [constructor|eauto].
  - destruct vals as [|v vals]; [discriminate|]. unfold setColumn.
    destruct ((0 <=? c) && (c <? zlen r)) eqn:E.
    + rewrite IH by (now injection Hl).
      assert (zlen (firstn (Z.to_nat c) r ++ v :: skipn (S (Z.to_nat c)) r) = zlen r) as ->.
      { unfold zlen in *. rewrite app_length. cbn [length]. rewrite firstn_length, skipn_length. lia. }
      split; [intros H; constructor; [lia|exact H]|intros H; now inversion H].
    + split; [intros (r' & ?); discriminate|]. intros H. inversion H; subst. lia.
Qed.

(** ** The invariant of one table *)
Section Inv.
  Context {X : FloatLib} {L : CaseLib} {G : GobLib}.
  Context (nu : Prop) (tid : Z).

  Definition good (kc : list (nat * bool)) (cts : list coltype) (it : item) : Prop :=
    MakeKey (keys_of kc) (it_row it) = Some (it_key it) /\ length (it_row it) = length cts /\
    Forall wf_value (it_row it) /\ (nu -> Forall2 storable cts (it_row it)).

  Record Def (kc : list (nat * bool)) (cts : list coltype) (d : bool) (t : tree) (tbs : list table)
      (rss : list rowset) (refs : list rowref) : Prop := {
    d_small : small_cols kc;
    d_cols : Forall (fun cd => (fst cd < length cts)%nat) kc;
    d_sizes : Forall (fun ct => is_u32 (ct_size ct)) cts;
    d_type : forall wt, In (tyitem tid wt) t -> wt_key wt = keys_of kc /\ wt_types wt = cts;
    d_items : forall it, In it t -> it_rel it = tid * 2 ^ 32 -> good kc cts it;
    d_tbs : forall tb, In tb tbs -> tb_tid tb = tid -> tt_key (tb_tt tb) = keys_of kc /\ tt_types (tb_tt tb) = cts;
    d_rows : forall rs tb it, In rs rss -> nth_error tbs (rs_tbl rs) = Some tb -> tb_tid tb = tid ->
       In it (rs_items rs) -> it_rel it = tid * 2 ^ 32 /\ good kc cts it;
    d_refs : forall rr tb, In rr refs -> nth_error tbs (rr_tbl rr) = Some tb -> tb_tid tb = tid ->
       exists r0, Forall wf_value r0 /\ length r0 = length cts /\ MakeKey (keys_of kc) r0 = Some (rr_key rr);
    d_none : d = false -> (exists wt, In (tyitem tid wt) t) \/
       (of_rel (tid * 2 ^ 32) t = [] /\ forall tb, In tb tbs -> tb_tid tb <> tid)
  }.

  Record Inv (d : bool) (t : tree) (tbs : list table) (rss : list rowset) (refs : list rowref) : Prop := {
    i_types : types_ok t;
    i_tbs : Forall (fun tb => EngineTableId <= tb_tid tb < 2 ^ 32) tbs;
    i_def : exists kc cts, Def kc cts d t tbs rss refs
  }.

  Definition InvV (d : bool) (v : vtx) : Prop := Inv d (v_tree v) (v_tables v) (v_rows v) (v_refs v).

  Lemma Inv_new d : Inv d [] [] [] [].
  Proof.
    constructor.
    - intros it [].
    - constructor.
    - exists [], []. constructor; try (intros; contradiction); try apply Forall_nil.
      intros _. right. split; [reflexivity|]. intros tb [].
  Qed.

  Lemma Inv_forget d t tbs rss refs : Inv d t tbs rss refs -> Inv d t [] [] [].
  Proof.
    intros [T B (kc & cts & D)]. constructor; [exact T|constructor|]. exists kc, cts.
    destruct D as [D1 D2 D3 D4 D5 D6 D7 D8 D9].
    constructor; try assumption; try (intros; contradiction).
    intros Hd. destruct (D9 Hd) as [K|[K _]]; [now left|right]. split; [exact K|]. intros tb [].
  Qed.

  Lemma Inv_drop d t tbs rss refs : Inv d t tbs rss refs -> Inv true t tbs rss refs.
  Proof.
    intros [T B (kc & cts & D)]. constructor; [exact T|exact B|]. exists kc, cts.
    destruct D as [D1 D2 D3 D4 D5 D6 D7 D8 D9]. constructor; try assumption. discriminate.
  Qed.

  (** Only rows of tables change. *)
  Lemma Inv_rows d t t' tbs rss refs :
    Inv d t tbs rss refs ->
    (forall it, it_rel it = 0 -> In it t' <-> In it t) ->
    (forall it, In it t' -> it_rel it = tid * 2 ^ 32 ->
       In it t \/ exists tb, In tb tbs /\ tb_tid tb = tid /\
         forall kc cts, Def kc cts d t tbs rss refs -> tt_key (tb_tt tb) = keys_of kc -> tt_types (tb_tt tb) = cts -> good kc cts it) ->
    Inv d t' tbs rss refs.
  Proof.
    intros [T B (kc & cts & D)] H0 H1. constructor.
    - intros it Hi E. apply T; [|exact E]. now apply H0.
    - exact B.
    - exists kc, cts. pose proof D as [D1 D2 D3 D4 D5 D6 D7 D8 D9].
      constructor; try assumption.
      + intros wt Hi. apply D4. now apply H0.
      + intros it Hi E. destruct (H1 it Hi E) as [K|(tb & K1 & K2 & K3)]; [now apply D5|].
        destruct (D6 tb K1 K2) as [K4 K5]. now apply K3.
      + intros Hd. destruct (D9 Hd) as [(wt & K)|[K1 K2]].
        * left. exists wt. apply H0; [reflexivity|exact K].
        * right. split; [|exact K2]. destruct (of_rel (tid * 2 ^ 32) t') as [|it l] eqn:E; [reflexivity|exfalso].
          assert (In it (of_rel (tid * 2 ^ 32) t')) as Hi by (rewrite E; now left).
          apply of_rel_In in Hi as [Hi Er]. destruct (H1 it Hi Er) as [K|(tb & K3 & K4 & _)].
          -- assert (In it (of_rel (tid * 2 ^ 32) t)) as Hi' by (apply of_rel_In; auto). now rewrite K1 in Hi'.
          -- now apply (K2 tb).
  Qed.

  Lemma handle_rel d t tbs rss refs tb : Inv d t tbs rss refs -> In tb tbs ->
    toRelationId (tb_tid tb) = tb_tid tb * 2 ^ 32 /\ EngineTableId <= tb_tid tb < 2 ^ 32.
  Proof.
    intros [_ B _] Hi. pose proof (proj1 (Forall_forall _ _) B tb Hi) as K. simpl in K. split; [|exact K].
    apply toRelationId_small. unfold EngineTableId, is_u32 in *. lia.
  Qed.

  Lemma makes_good tb r it kc cts : FloatLib_ok X -> Forall (fun ct => is_u32 (ct_size ct)) cts ->
    Forall wf_value r -> tt_key (tb_tt tb) = keys_of kc -> tt_types (tb_tt tb) = cts -> makes tb r it -> good kc cts it.
  Proof.
    intros HX Hs Hw Ek Et (M1 & M2 & M3). rewrite Et in M1.
    destruct (convert_row_good cts r (it_row it) HX Hs Hw M1) as (A & B & C).
    split; [congruence|]. auto.
  Qed.

  Lemma added_In t its t' it : added t its t' -> (In it t' <-> In it its \/ In it t).
  Proof.
    intros A. apply added_perm in A. split; intros H.
    - apply (Permutation_in _ A) in H. now apply in_app_or in H.
    - apply (Permutation_in _ (Permutation_sym A)). now apply in_or_app.
  Qed.

  Lemma Forall2_makes tb rs its it : Forall2 (makes tb) rs its -> In it its -> exists r, In r rs /\ makes tb r it.
  Proof.
    induction 1 as [|r it' rs its M F IH]; intros Hi; [destruct Hi|].
    destruct Hi as [<-|Hi]; [exists r; split; [now left|exact M]|].
    destruct (IH Hi) as (r' & ? & ?). exists r'. split; [now right|assumption].
  Qed.

  Lemma Inv_insert d t tbs rss refs tb rs i r t' i' :
    FloatLib_ok X -> Inv d t tbs rss refs -> In tb tbs -> Forall (Forall wf_value) rs ->
    vInsertRows tb rs (t, i) = (r, (t', i')) -> Inv d t' tbs rss refs.
  Proof.
    intros HX HI Hb Hw E. destruct (handle_rel _ _ _ _ _ _ HI Hb) as [Er Hr].
    apply insertRows_eff in E as [-> (rs1 & rs2 & its & -> & F & A & _)].
    apply (Inv_rows d t t' tbs rss refs HI).
    - intros it E0. rewrite (added_In _ _ _ it A). split; [|now right]. intros [K|K]; [|exact K]. exfalso.
      destruct (Forall2_makes _ _ _ _ F K) as (r0 & _ & _ & M & _). unfold EngineTableId in Hr. lia.
    - intros it Hi Ei. apply (added_In _ _ _ it A) in Hi as [Hi|Hi]; [|now left].
      destruct (Forall2_makes _ _ _ _ F Hi) as (r0 & Hr0 & M). right. exists tb. split; [exact Hb|].
      split. { destruct M as (_ & M & _). lia. }
      intros kc cts D Ek Et. apply (makes_good tb r0 it kc cts HX (d_sizes _ _ _ _ _ _ _ D)); try assumption.
      apply (proj1 (Forall_forall _ _) Hw). apply in_or_app. now left.
  Qed.

  Lemma Inv_delete d t tbs rss refs k : sorted t ->
    Inv d t tbs rss refs -> it_rel k <> 0 -> Inv d (fst (t_delete t k)) tbs rss refs.
  Proof.
    intros S HI N. apply (Inv_rows d t _ tbs rss refs HI).
    - intros it E. rewrite delete_In by exact S. split; [tauto|]. intros H. split; [exact H|].
      rewrite icmp_eq. intros [K _]. congruence.
    - intros it Hi E. left. apply delete_In in Hi as [Hi _]; [exact Hi|exact S].
  Qed.

  Lemma Inv_update d t tbs rss refs tb k cols vals i r t' i' :
    FloatLib_ok X -> ~ nu -> sorted t -> Inv d t tbs rss refs -> In tb tbs -> Forall wf_value vals ->
    vUpdate tb k cols vals (t, i) = (r, (t', i')) -> Inv d t' tbs rss refs.
  Proof.
    intros HX HN S HI Hb Hw E. destruct (handle_rel _ _ _ _ _ _ HI Hb) as [Er Hr].
    apply (update_eff _ _ _ _ _ _ _ _ _ S) in E as [-> [(-> & _)|(x & r1 & Hl & Hg & Hs & E)]]; [exact HI|].
    apply t_get_Some in Hg as [Hx Ex]. apply icmp_eq in Ex as [Ex _]. simpl in Ex. rewrite Er in Ex.
    apply setColumns_spec in Hs as (Hs1 & Hs2 & Hs3).
    destruct E as [[_ E]|(_ & _ & k' & Hk & ->)].
    - destruct (Z.eq_dec (tb_tid tb) tid) as [Et|Et].
      + pose proof HI as [_ _ (kc & cts & D)]. rewrite Et in Ex.
        pose proof (d_items _ _ _ _ _ _ _ D x Hx Ex) as (_ & Gx2 & Gx3 & _).
        apply (Inv_insert d _ tbs rss refs tb [r1] _ _ _ _ HX) in E; [exact E| |exact Hb|].
        * apply Inv_delete; [exact S|exact HI|]. simpl. rewrite Er. unfold EngineTableId in Hr. lia.
        * constructor; [|constructor]. now apply Hs3.
      + (* another table: nothing is known of its rows *)
        apply insertRows_eff in E as [_ (rs1 & rs2 & its & _ & F & A & _)].
        apply (Inv_rows d _ t' tbs rss refs
          (Inv_delete d t tbs rss refs (keyToItem (toRelationId (tb_tid tb)) k) S HI
             ltac:(simpl; rewrite Er; unfold EngineTableId in Hr; lia))).
        * intros it E0. rewrite (added_In _ _ _ it A). split; [|now right]. intros [K|K]; [|exact K]. exfalso.
          destruct (Forall2_makes _ _ _ _ F K) as (r0 & _ & _ & M & _). unfold EngineTableId in Hr. lia.
        * intros it Hi Ei. apply (added_In _ _ _ it A) in Hi as [Hi|Hi]; [|now left]. exfalso.
          destruct (Forall2_makes _ _ _ _ F Hi) as (r0 & Hr0 & _ & M & _). lia.
    - apply (Inv_rows d t _ tbs rss refs HI).
      + intros it E0. rewrite insert_In by exact S. split.
        * intros [->|[K _]]; [|exact K]. simpl in E0. rewrite Er in E0. unfold EngineTableId in Hr. lia.
        * intros K. right. split; [exact K|]. rewrite icmp_eq. simpl. rewrite Er. unfold EngineTableId in Hr. lia.
      + intros it Hi Ei. apply insert_In in Hi; [|exact S]. destruct Hi as [->|[Hi _]]; [|now left].
        simpl in Ei. right. exists tb. split; [exact Hb|]. split; [lia|]. intros kc cts D Ek Et.
        rewrite Er in Ei. assert (tb_tid tb = tid) as Et' by lia. rewrite Et' in Ex.
        pose proof (d_items _ _ _ _ _ _ _ D x Hx Ex) as (_ & Gx2 & Gx3 & _).
        split; [simpl; congruence|]. split; [simpl; congruence|]. split; [simpl; now apply Hs3|]. intros K; contradiction.
  Qed.
End Inv.

Section Scan.
  Context {X : FloatLib} {L : CaseLib} {G : GobLib}.

  Definition pred_fn (tb : table) (p : option predicate) (predFn : option (Z * (value -> option bool))) : Prop :=
    match p with
    | None => predFn = None
    | Some p => exists ct f, znth (tt_types (tb_tt tb)) (p_column p) = Some ct /\ predicateFunction p ct = Some f /\
        predFn = Some (p_column p, f)
    end.

  Definition passes (predFn : option (Z * (value -> option bool))) (it : item) : bool :=
    match predFn with
    | None => true
    | Some (c, f) =>
        match znth (it_row it) c with
        | Some v => match f v with Some b => b | None => false end
        | None => false
        end
    end.

  Lemma filter_filter' {A} (f g : A -> bool) l : filter f (filter g l) = filter (fun x => g x && f x) l.
  Proof.
    induction l as [|x l IH]; simpl; [reflexivity|]. destruct (g x); simpl; [|exact IH].
    destruct (f x); [f_equal|]; exact IH.
  Qed.

  (** The predicate can be applied to the item. *)
  Definition passable (predFn : option (Z * (value -> option bool))) (it : item) : Prop :=
    match predFn with
    | None => True
    | Some (c, f) => exists v b, znth (it_row it) c = Some v /\ f v = Some b
    end.

  Lemma scan_defined rel mxI predFn t : sorted t ->
    (forall m, mxI = Some m -> it_rel m = rel) -> (forall it, In it t -> rel <= it_rel it) ->
    ((exists l, scanItems rel mxI predFn t = Some l) <->
     forall it, In it t -> it_rel it = rel ->
       match mxI with Some m => negb (lessItems m it) | None => true end = true -> passable predFn it).
  Proof.
    intros S Hm. induction t as [|y t IH]; intros Hrel; simpl.
    - split; [intros _ it []|eauto].
    - apply sorted_inv in S as [S Ly]. specialize (IH S).
      assert (forall it, In it t -> rel <= it_rel it) as Hrel' by (intros it Hi; apply Hrel; now right). specialize (IH Hrel').
      destruct (Z.eqb_spec (it_rel y) rel) as [E|E]; simpl.
      2:{ split; [|eauto]. intros _ it [<-|Hi] Er; [contradiction|]. exfalso. apply Ly in Hi.
          specialize (Hrel y (or_introl eq_refl)). unfold icmp in Hi.
          destruct (Z.compare_spec (it_rel y) (it_rel it)); try discriminate; lia. }
      destruct (match mxI with Some m => lessItems m y | None => false end) eqn:F.
      { split; [|eauto]. intros _ it Hi Er Hx. exfalso. destruct mxI as [m|]; [|discriminate].
        destruct Hi as [<-|Hi]; [now rewrite F in Hx|]. apply Ly in Hi.
        rewrite lessItems_icmp in F. destruct (icmp m y) eqn:F'; try discriminate.
        rewrite lessItems_icmp, (icmp_trans _ _ _ F' Hi) in Hx. discriminate. }
      assert (match mxI with Some m => negb (lessItems m y) | None => true end = true) as Fy
        by (destruct mxI; [now rewrite F|reflexivity]).
      assert (passable predFn y <-> exists b, match predFn with
          | None => Some true
          | Some (col, f) => match znth (it_row y) col with Some v => f v | None => None end
          end = Some b) as Hp.
      { destruct predFn as [[c f]|]; simpl; [|split; eauto]. destruct (znth (it_row y) c) as [v|].
        - split; [intros (v' & b & [= <-] & H); eauto|intros (b & H); eauto].
        - split; [intros (v' & b & H & _); discriminate|intros (b & H); discriminate]. }
      assert (forall b, ((exists l, (if b : bool then match scanItems rel mxI predFn t with Some l' => Some (y :: l') | None => None end
                else scanItems rel mxI predFn t) = Some l) <-> exists l, scanItems rel mxI predFn t = Some l)) as Hb.
      { intros [|]; [|reflexivity]. destruct (scanItems rel mxI predFn t) as [l0|]; split; intros (l1 & H1); eauto; discriminate. }
      split.
      + intros (l & H) it [<-|Hi] Er Hx.
        * apply Hp. destruct (match predFn with Some _ => _ | None => _ end); [eauto|discriminate].
        * apply IH; try assumption. destruct (match predFn with Some _ => _ | None => _ end) as [b|]; [|discriminate].
          apply (Hb b). destruct b; eauto.
      + intros H. assert (passable predFn y) as Py by (apply H; auto). apply Hp in Py as (b & Py). rewrite Py.
        assert (exists l, scanItems rel mxI predFn t = Some l) as R by (apply IH; intros; apply H; auto).
        apply (Hb b) in R. destruct b; exact R.
  Qed.

  Definition scanned (tb : table) mnI mxI predFn (t : tree) : list item :=
    filter (fun it => negb (lessItems it mnI) && ((it_rel it =? toRelationId (tb_tid tb)) &&
      match mxI with Some m => negb (lessItems m it) | None => true end && passes predFn it)) t.

  Lemma rows_eff tb mn mx p t i r t' i' : sorted t ->
    vRows tb mn mx p (t, i) = (r, (t', i')) ->
    t' = t /\ i' = i /\ (forall e, r <> Err e) /\
    forall items, r = Ok items -> exists mnI mxI predFn,
      rowToItem (toRelationId (tb_tid tb)) (tt_key (tb_tt tb)) mn = Some mnI /\
      match mx with
      | None => mxI = None
      | Some _ => exists m, rowToItem (toRelationId (tb_tid tb)) (tt_key (tb_tt tb)) mx = Some m /\ mxI = Some m
      end /\
      pred_fn tb p predFn /\ items = scanned tb mnI mxI predFn t /\
      forall it, In it t -> it_rel it = toRelationId (tb_tid tb) ->
        negb (lessItems it mnI) && match mxI with Some m => negb (lessItems m it) | None => true end = true ->
        passable predFn it.
  Proof.
    intros S E. unfold vRows in E. set (rel := toRelationId (tb_tid tb)) in *. set (key := tt_key (tb_tt tb)) in *.
    assert (exists rm, match mx with
       | None => vret None
       | Some _ => vbind (vlift (rowToItem rel key mx)) (fun it => vret (Some it)) end (t, i) = (rm, (t, i)) /\
       (forall e, rm <> Err e) /\
       forall mxI, rm = Ok mxI -> match mx with None => mxI = None | Some _ => exists m, rowToItem rel key mx = Some m /\ mxI = Some m end)
      as (rm & Em & Nm & Hm).
    { destruct mx as [mx|].
      - unfold vbind, vlift. destruct (rowToItem rel key (Some mx)) as [m|] eqn:Er.
        + exists (Ok (Some m)). split; [reflexivity|]. split; [discriminate|]. intros mxI [= <-]. eauto.
        + exists Panic. split; [reflexivity|]. split; discriminate.
      - exists (Ok None). split; [reflexivity|]. split; [discriminate|]. now intros mxI [= <-]. }
    unfold vbind at 1 in E. rewrite Em in E. destruct rm as [mxI|e|]; [|now exfalso; apply (Nm e)|].
    2:{ injection E as <- <- <-. do 2 (split; [reflexivity|]). split; [discriminate|]. discriminate. }
    specialize (Hm mxI eq_refl).
    assert (exists rp, match p with
       | None => vret None
       | Some p => vbind (vlift (znth (tt_types (tb_tt tb)) (p_column p))) (fun ct =>
            vbind (vlift (predicateFunction p ct)) (fun f => vret (Some (p_column p, f)))) end (t, i) = (rp, (t, i)) /\
       (forall e, rp <> Err e) /\ forall pf, rp = Ok pf -> pred_fn tb p pf) as (rp & Ep & Np & Hp).
    { destruct p as [p|]; simpl.
      - unfold vbind, vlift. destruct (znth _ _) as [ct|] eqn:Ec.
        + simpl. destruct (predicateFunction p ct) as [f|] eqn:Ef.
          * exists (Ok (Some (p_column p, f))). split; [reflexivity|]. split; [discriminate|]. intros pf [= <-]. eauto.
          * exists Panic. split; [reflexivity|]. split; discriminate.
        + exists Panic. split; [reflexivity|]. split; discriminate.
      - exists (Ok None). split; [reflexivity|]. split; [discriminate|]. now intros mxI' [= <-]. }
    unfold vbind at 1 in E. rewrite Ep in E. destruct rp as [pf|e|]; [|now exfalso; apply (Np e)|].
    2:{ injection E as <- <- <-. do 2 (split; [reflexivity|]). split; [discriminate|]. discriminate. }
    specialize (Hp pf eq_refl).
    unfold vbind, vlift in E. destruct (rowToItem rel key mn) as [mnI|] eqn:En.
    2:{ injection E as <- <- <-. do 2 (split; [reflexivity|]). split; [discriminate|]. discriminate. }
    unfold vret at 1, vread in E. cbn [fst] in E.
    destruct (scanItems rel mxI pf (t_ascend_ge t mnI)) as [items|] eqn:Es.
    2:{ injection E as <- <- <-. do 2 (split; [reflexivity|]). split; [discriminate|]. discriminate. }
    injection E as <- <- <-. do 2 (split; [reflexivity|]). split; [discriminate|].
    intros items' [= <-]. exists mnI, mxI, pf. split; [reflexivity|]. split; [exact Hm|]. split; [exact Hp|].
    assert (it_rel mnI = rel) as Rmn.
    { unfold rowToItem in En. destruct mn as [mn|]; [destruct (MakeKey key mn); [|discriminate]|]; injection En as <-; reflexivity. }
    assert (forall m, mxI = Some m -> it_rel m = rel) as Rmx.
    { intros m ->. destruct mx as [mx|]; [|discriminate]. destruct Hm as (m' & Hm & [= ->]).
      unfold rowToItem in Hm. destruct (MakeKey key mx); [|discriminate]. injection Hm as <-. reflexivity. }
    assert (forall it, In it (t_ascend_ge t mnI) -> rel <= it_rel it) as Rge.
    { intros it Hi. unfold t_ascend_ge in Hi. apply filter_In in Hi as [_ Hi].
      unfold lessItems in Hi. destruct (Z.ltb_spec (it_rel it) (it_rel mnI)); [discriminate|lia]. }
    split.
    2:{ intros it Hi Ei Hx. apply andb_true_iff in Hx as [Hx1 Hx2].
        apply (proj1 (scan_defined rel mxI pf _ (sorted_filter _ t S) Rmx Rge) (ex_intro _ items Es) it); try assumption.
        apply filter_In. auto. }
    apply scan_stop_sorted in Es.
    - rewrite Es. unfold t_ascend_ge. rewrite filter_filter'. unfold scanned. apply filter_ext.
      intros it. unfold passes. f_equal.
    - now apply sorted_filter.
    - exact Rmx.
    - exact Rge.
  Qed.

  Lemma rows_succeeds tb mn mx p t i mnI mxI predFn : sorted t ->
    rowToItem (toRelationId (tb_tid tb)) (tt_key (tb_tt tb)) mn = Some mnI ->
    match mx with
    | None => mxI = None
    | Some _ => exists m, rowToItem (toRelationId (tb_tid tb)) (tt_key (tb_tt tb)) mx = Some m /\ mxI = Some m
    end ->
    pred_fn tb p predFn ->
    (forall it, In it t -> it_rel it = toRelationId (tb_tid tb) ->
        negb (lessItems it mnI) && match mxI with Some m => negb (lessItems m it) | None => true end = true ->
        passable predFn it) ->
    exists items, vRows tb mn mx p (t, i) = (Ok items, (t, i)).
  Proof.
    intros S Hn Hm Hp H. unfold vRows. set (rel := toRelationId (tb_tid tb)) in *. set (key := tt_key (tb_tt tb)) in *.
    assert (match mx with
       | None => vret None
       | Some _ => vbind (vlift (rowToItem rel key mx)) (fun it => vret (Some it)) end (t, i) = (Ok mxI, (t, i))) as Em.
    { destruct mx as [mx|]; [|now subst mxI]. destruct Hm as (m & Hm & ->). unfold vbind, vlift. now rewrite Hm. }
    unfold vbind at 1. rewrite Em.
    assert (match p with
       | None => vret None
       | Some p => vbind (vlift (znth (tt_types (tb_tt tb)) (p_column p))) (fun ct =>
            vbind (vlift (predicateFunction p ct)) (fun f => vret (Some (p_column p, f)))) end (t, i) = (Ok predFn, (t, i))) as Ep.
    { destruct p as [p|]; simpl in Hp; [|now subst predFn]. destruct Hp as (ct & f & H1 & H2 & ->).
      unfold vbind, vlift. rewrite H1. unfold vret at 1. now rewrite H2. }
    unfold vbind at 1. rewrite Ep. unfold vbind, vlift at 1. rewrite Hn. unfold vret at 1, vread. cbn [fst].
    assert (it_rel mnI = rel) as Rmn.
    { unfold rowToItem in Hn. destruct mn as [mn|]; [destruct (MakeKey key mn); [|discriminate]|]; injection Hn as <-; reflexivity. }
    assert (forall m, mxI = Some m -> it_rel m = rel) as Rmx.
    { intros m ->. destruct mx as [mx|]; [|discriminate]. destruct Hm as (m' & Hm & [= ->]).
      unfold rowToItem in Hm. destruct (MakeKey key mx); [|discriminate]. injection Hm as <-. reflexivity. }
    assert (forall it, In it (t_ascend_ge t mnI) -> rel <= it_rel it) as Rge.
    { intros it Hi. unfold t_ascend_ge in Hi. apply filter_In in Hi as [_ Hi].
      unfold lessItems in Hi. destruct (Z.ltb_spec (it_rel it) (it_rel mnI)); [discriminate|lia]. }
    destruct (proj2 (scan_defined rel mxI predFn _ (sorted_filter _ t S) Rmx Rge)) as (l & Hl).
    - intros it Hi Ei Hx. apply filter_In in Hi as [Hi Hx1]. apply H; try assumption. now rewrite Hx1.
    - fold (t_ascend_ge t mnI) in Hl. rewrite Hl. exists l. reflexivity.
  Qed.
End Scan.

Section InvStep.
  Context {X : FloatLib} {L : CaseLib} {G : GobLib}.
  Context (nu : Prop) (tid : Z).

  Lemma Inv_other_handles d t tbs rss refs rss' refs' :
    Inv nu tid d t tbs rss refs ->
    (forall kc cts, Def nu tid kc cts d t tbs rss refs ->
      (forall rs tb it, In rs rss' -> nth_error tbs (rs_tbl rs) = Some tb -> tb_tid tb = tid ->
         In it (rs_items rs) -> it_rel it = tid * 2 ^ 32 /\ good nu kc cts it) /\
      (forall rr tb, In rr refs' -> nth_error tbs (rr_tbl rr) = Some tb -> tb_tid tb = tid ->
         exists r0, Forall wf_value r0 /\ length r0 = length cts /\ MakeKey (keys_of kc) r0 = Some (rr_key rr))) ->
    Inv nu tid d t tbs rss' refs'.
  Proof.
    intros [T B (kc & cts & D)] H. constructor; [exact T|exact B|]. exists kc, cts.
    destruct (H kc cts D) as [H1 H2]. destruct D as [D1 D2 D3 D4 D5 D6 D7 D8 D9]. constructor; assumption.
  Qed.

  Lemma set_nth_In {A} n (x : A) l y : In y (set_nth n x l) -> y = x \/ In y l.
  Proof.
    revert n. induction l as [|z l IH]; intros [|n]; simpl; try tauto.
    - intros [<-|H]; auto.
    - intros [<-|H]; auto. apply IH in H. tauto.
  Qed.


  Lemma keys_in_range kc n : small_cols kc ->
    existsb (fun ck => n <=? ckColumn ck) (keys_of kc) = false -> Forall (fun cd => Z.of_nat (fst cd) < n) kc.
  Proof.
    intros Hs. induction kc as [|[c d] kc IH]; simpl; [constructor|]. inversion Hs; subst.
    intros H. apply orb_false_iff in H as [H1' H2']. constructor; [|now apply IH].
    simpl in *. destruct (column_key_round_trip_lemma (Z.of_nat c) d) as (E & _); [lia|]. rewrite E in H1'. lia.
  Qed.

  Definition dstep (d : bool) (c : txcall) (out : outcome) : bool :=
    match c, out with CDropTable t, ODone => (t =? tid) || d | _, _ => d end.

  Lemma Inv_step d x v c out v' :
    FloatLib_ok X -> GobLib_ok G -> EngineTableId <= tid ->
    vok v -> InvV nu tid d v -> op_typed (Call x c) -> (nu -> no_update (Call x c)) ->
    (forall tn cn ct p, c = CCreateTable tid tn cn ct p -> out = ODone -> d = false) ->
    vstep v c = (out, v') -> InvV nu tid (dstep d c out) v'.
  Proof.
    intros HX HG Ht (S & _ & _ & VR & VF) HI HT HN HC E.
    destruct c as [t tn cn ct p|t tn cn ct p|t| | | |i|i cols mn mx p|i rs|i|i|i|i cols vals|i];
      simpl in E; cbn [dstep].
    - (* open *)
      unfold vrun in E. destruct (vOpenTable t tn cn ct p (v_tree v, v_idt v)) as [r [t' i']] eqn:Eo.
      apply (openTable_eff t tn cn ct p _ _ _ _ _ HG HT S (i_types _ _ _ _ _ _ _ HI)) in Eo as [-> Eo].
      destruct r as [tb|e|]; [|contradiction|].
      + destruct Eo as (wt & Hw & Fw & Etid & _). injection E as <- <-.
        destruct HI as [T B (kc & cts & D)]. unfold InvV. simpl.
        assert (EngineTableId <= t < 2 ^ 32) as Htt.
        { destruct (T _ Hw eq_refl) as (t0 & j0 & ty0 & Ht0 & K). pose proof (f_equal it_row K) as K'. simpl in K'.
          injection K' as -> _. exact Ht0. }
        constructor; [exact T| |].
        { apply Forall_app. split; [exact B|]. constructor; [|constructor]. now rewrite Etid. }
        exists kc, cts. pose proof D as [D1 D2 D3 D4 D5 D6 D7 D8 D9]. constructor; try assumption.
        * intros tb' Hi Et. apply in_app_or in Hi as [Hi|[<-|[]]]; [now apply D6|].
          assert (t = tid) as -> by congruence.
          destruct (D4 wt Hw) as [<- <-]. apply fromWire_fields in Fw as (<- & <- & _). auto.
        * intros rs tb' it Hi Hn. apply (D7 rs tb' it Hi).
          rewrite nth_error_app1 in Hn; [exact Hn|]. exact (proj1 (Forall_forall _ _) VR rs Hi).
        * intros rr tb' Hi Hn. apply (D8 rr tb' Hi).
          rewrite nth_error_app1 in Hn; [exact Hn|]. exact (proj1 (Forall_forall _ _) VF rr Hi).
        * intros Hd. destruct (D9 Hd) as [K|[K1 K2]]; [now left|].
          destruct (Z.eq_dec t tid) as [->|N].
          -- left. now exists wt.
          -- right. split; [exact K1|]. intros tb' Hi. apply in_app_or in Hi as [Hi|[<-|[]]]; [now apply K2|congruence].
      + injection E as <- <-. exact HI.
    - (* create *)
      unfold vrun in E. destruct (vCreateTable t tn cn ct p (v_tree v, v_idt v)) as [r [t' i']] eqn:Eo.
      destruct HT as (HT1 & HT2 & HT3).
      apply (createTable_eff t tn cn ct p _ _ _ _ _ HG HT1 S (i_types _ _ _ _ _ _ _ HI)) in Eo as
        [(-> & Nr & _)|(-> & He & -> & Nt & Hl & k & -> & _ & Ek & ->)].
      + assert (v' = v_with v (v_tree v, i')) as -> by (destruct r as [[]|e|]; [contradiction|congruence|congruence]).
        assert (dstep d (CCreateTable t tn cn ct p) out = d) by reflexivity. exact HI.
      + injection E as <- <-. simpl dstep.
        destruct (HT3 k eq_refl) as (kc0 & Hs0 & ->).
        pose proof (keys_in_range kc0 _ Hs0 Ek) as Hc0.
        set (wt := toWire _ _). set (it := tyitem t wt) in *.
        assert (forall it', In it' (t_replace_or_insert (v_tree v) it) <-> it' = it \/ In it' (v_tree v)) as Hin.
        { intros it'. rewrite insert_In by exact S. split; [tauto|]. intros [->|K]; [now left|]. right. split; [exact K|].
          intros Ei. apply icmp_eq in Ei as [E1 E2]. simpl in E1, E2.
          destruct (i_types _ _ _ _ _ _ _ HI it' K E1) as (t0 & j0 & ty0 & Ht0 & ->). simpl in E2.
          apply tidkey_inj in E2; [|now apply engine_i64|now apply u32_i64]. subst t0. now apply (Nt (toWire j0 ty0)). }
        destruct HI as [T B (kc & cts & D)]. unfold InvV. simpl.
        constructor; [|exact B|].
        { intros it' Hi E0. apply Hin in Hi as [->|Hi]; [|now apply T].
          eexists t, _, _. split; [|reflexivity]. unfold is_u32 in HT1. lia. }
        destruct (Z.eq_dec t tid) as [->|N].
        * assert (d = false) as -> by (now eapply HC; eauto).
          destruct (d_none _ _ _ _ _ _ _ _ _ D eq_refl) as [(wt0 & K)|[K1 K2]]; [exfalso; now apply (Nt wt0)|].
          exists kc0, ct. constructor.
          -- exact Hs0.
          -- apply Forall_forall. intros cd Hcd. pose proof (proj1 (Forall_forall _ _) Hc0 cd Hcd) as K. simpl in K.
             unfold zlen in K. lia.
          -- exact HT2.
          -- intros wt' Hi. apply Hin in Hi as [K|K]; [|exfalso; now apply (Nt wt')].
             pose proof (f_equal it_row K) as K'. simpl in K'. injection K' as K'.
             apply (f_equal x_gob_decode) in K'. rewrite !HG in K'. injection K' as ->. auto.
          -- intros it' Hi Er. apply Hin in Hi as [->|Hi]; [simpl in Er; unfold EngineTableId in Ht; lia|].
             exfalso. assert (In it' (of_rel (tid * 2 ^ 32) (v_tree v))) as K by (apply of_rel_In; auto).
             now rewrite K1 in K.
          -- intros tb Hi Et. now apply K2 in Hi.
          -- intros rs tb it' _ Hn Et. apply nth_error_In in Hn. now apply K2 in Hn.
          -- intros rr tb _ Hn Et. apply nth_error_In in Hn. now apply K2 in Hn.
          -- intros _. left. exists wt. apply Hin. now left.
        * exists kc, cts. pose proof D as [D1 D2 D3 D4 D5 D6 D7 D8 D9]. constructor; try assumption.
          -- intros wt' Hi. apply Hin in Hi as [K|K]; [|now apply D4]. exfalso. apply N.
             pose proof (f_equal it_row K) as K'. simpl in K'. injection K' as -> _. reflexivity.
          -- intros it' Hi Er. apply Hin in Hi as [->|Hi]; [simpl in Er; unfold EngineTableId in Ht; lia|now apply D5].
          -- intros Hd. destruct (D9 Hd) as [(wt0 & K)|[K1 K2]].
             ++ left. exists wt0. apply Hin. now right.
             ++ right. split; [|exact K2]. rewrite insert_other; [exact K1|]. simpl. unfold EngineTableId in Ht. lia.
    - (* drop *)
      unfold vrun in E. destruct (vDropTable t (v_tree v, v_idt v)) as [r [t' i']] eqn:Eo.
      apply (dropTable_eff t _ _ _ _ _ HG HT S (i_types _ _ _ _ _ _ _ HI)) in Eo as
        [(-> & -> & _)|(-> & (wt & ty & Hw & Fw) & ->)].
      + injection E as <- <-. exact HI.
      + injection E as <- <-.
        assert (forall it', In it' (fst (t_delete (v_tree v) (keyToItem 0 (tidkey t)))) <->
                 In it' (v_tree v) /\ it' <> tyitem t wt) as Hin.
        { intros it'. rewrite delete_In by exact S. split; intros [K N]; (split; [exact K|]).
          - intros ->. apply N. apply icmp_eq. now split.
          - intros Ei. apply N. apply (sorted_unique (v_tree v)); try assumption.
            }
        destruct HI as [T B (kc & cts & D)]. unfold InvV. simpl v_tree. simpl v_tables. simpl v_rows. simpl v_refs.
        pose proof D as [D1 D2 D3 D4 D5 D6 D7 D8 D9].
        constructor; [|exact B|].
        { intros it' Hi E0. apply Hin in Hi as [Hi _]. now apply T. }
        exists kc, cts. constructor; try assumption.
        * intros wt' Hi. apply Hin in Hi as [Hi _]. now apply D4.
        * intros it' Hi Er. apply Hin in Hi as [Hi _]. now apply D5.
        * destruct (Z.eqb_spec t tid) as [->|N]; [discriminate|]. simpl. intros Hd.
          destruct (D9 Hd) as [(wt0 & K)|[K1 K2]].
          -- left. exists wt0. apply Hin. split; [exact K|]. intros K'. apply N.
             pose proof (f_equal it_row K') as K''. simpl in K''. injection K'' as -> _. reflexivity.
          -- right. split; [|exact K2]. rewrite delete_other; [exact K1|]. simpl. unfold EngineTableId in Ht. lia.
    - injection E as <- <-. exact HI.
    - injection E as <- <-. exact HI.
    - injection E as <- <-. exact HI.
    - destruct (nth_error _ _); injection E as <- <-; exact HI.
    - (* rows *)
      destruct (nth_error (v_tables v) i) as [tb|] eqn:Eb; [|injection E as <- <-; exact HI].
      unfold vrun in E. destruct (vRows tb mn mx p (v_tree v, v_idt v)) as [r [t' i']] eqn:Eo.
      apply (rows_eff tb mn mx p _ _ _ _ _ S) in Eo as (-> & -> & Ne & Hr).
      destruct r as [items|e|]; [|now exfalso; apply (Ne e)|injection E as <- <-; exact HI].
      destruct (Hr items eq_refl) as (mnI & mxI & pf & _ & _ & _ & -> & _). injection E as <- <-.
      unfold InvV. simpl. pose proof (nth_error_In _ _ Eb) as Hb.
      destruct (handle_rel _ _ _ _ _ _ _ _ HI Hb) as [Er Hrr].
      apply (Inv_other_handles d _ _ _ _ _ _ HI). intros kc cts D. split; [|intros rr tb' Hi; now apply (d_refs _ _ _ _ _ _ _ _ _ D)].
      intros rs tb' it Hi Hn Et Hit. apply in_app_or in Hi as [Hi|[<-|[]]]; [now apply (d_rows _ _ _ _ _ _ _ _ _ D rs tb')|].
      simpl in Hn, Hit. assert (tb' = tb) as -> by congruence.
      unfold scanned in Hit. apply filter_In in Hit as [Hit Hc].
      assert (it_rel it = tid * 2 ^ 32) as Ei.
      { rewrite Er, Et in Hc. destruct (Z.eqb_spec (it_rel it) (tid * 2 ^ 32)); [assumption|].
        simpl in Hc. rewrite andb_false_r in Hc. discriminate. }
      split; [exact Ei|]. now apply (d_items _ _ _ _ _ _ _ _ _ D).
    - (* insert *)
      destruct (nth_error (v_tables v) i) as [tb|] eqn:Eb; [|injection E as <- <-; exact HI].
      unfold vrun in E. destruct (vInsertRows tb rs (v_tree v, v_idt v)) as [r [t' i']] eqn:Eo.
      apply (Inv_insert nu tid d _ _ _ _ tb rs _ _ _ _ HX HI (nth_error_In _ _ Eb) HT) in Eo.
      destruct r; injection E as <- <-; exact Eo.
    - (* next *)
      destruct (nth_error (v_rows v) i) as [rs|] eqn:Eb; [|injection E as <- <-; exact HI].
      destruct (_ <? _); [injection E as <- <-; exact HI|]. destruct (_ =? _); [injection E as <- <-; exact HI|].
      destruct (znth _ _) as [it|]; [|injection E as <- <-; exact HI]. injection E as _ <-.
      unfold InvV. simpl. apply (Inv_other_handles d _ _ _ _ _ _ HI). intros kc cts D.
      split; [|intros rr tb' Hi; now apply (d_refs _ _ _ _ _ _ _ _ _ D)].
      intros rs' tb' it' Hi. apply set_nth_In in Hi as [->|Hi]; [|now apply (d_rows _ _ _ _ _ _ _ _ _ D)].
      simpl. apply (d_rows _ _ _ _ _ _ _ _ _ D rs). now apply nth_error_In in Eb.
    - (* current *)
      destruct (nth_error (v_rows v) i) as [rs|] eqn:Eb; [|injection E as <- <-; exact HI].
      destruct (_ <=? _); [injection E as <- <-; exact HI|].
      destruct (znth _ _) as [it|] eqn:Ez; [|injection E as <- <-; exact HI]. injection E as _ <-.
      unfold InvV. simpl. apply (Inv_other_handles d _ _ _ _ _ _ HI). intros kc cts D.
      split; [intros rs' tb' it' Hi; now apply (d_rows _ _ _ _ _ _ _ _ _ D)|].
      intros rr tb' Hi Hn Et. apply in_app_or in Hi as [Hi|[<-|[]]]; [now apply (d_refs _ _ _ _ _ _ _ _ _ D rr tb')|].
      simpl in *. destruct (d_rows _ _ _ _ _ _ _ _ _ D rs tb' it (nth_error_In _ _ Eb) Hn Et) as (_ & G1 & G2 & G3 & _).
      { unfold znth in Ez. destruct (_ <? _); [discriminate|]. now apply nth_error_In in Ez. }
      exists (it_row it). auto.
    - (* close *)
      destruct (nth_error (v_rows v) i) as [rs|] eqn:Eb; [|injection E as <- <-; exact HI].
      destruct (_ <? _); [injection E as <- <-; exact HI|]. injection E as _ <-.
      unfold InvV. simpl. apply (Inv_other_handles d _ _ _ _ _ _ HI). intros kc cts D.
      split; [|intros rr tb' Hi; now apply (d_refs _ _ _ _ _ _ _ _ _ D)].
      intros rs' tb' it' Hi. apply set_nth_In in Hi as [->|Hi]; [|now apply (d_rows _ _ _ _ _ _ _ _ _ D)].
      simpl. apply (d_rows _ _ _ _ _ _ _ _ _ D rs). now apply nth_error_In in Eb.
    - (* update *)
      destruct (nth_error (v_refs v) i) as [rr|]; [|injection E as <- <-; exact HI].
      destruct (nth_error (v_tables v) (rr_tbl rr)) as [tb|] eqn:Eb; [|injection E as <- <-; exact HI].
      unfold vrun in E. destruct (vUpdate tb (rr_key rr) cols vals (v_tree v, v_idt v)) as [r [t' i']] eqn:Eo.
      apply (Inv_update nu tid d _ _ _ _ tb _ _ _ _ _ _ _ HX HN S HI (nth_error_In _ _ Eb) HT) in Eo.
      destruct r; injection E as <- <-; exact Eo.
    - (* delete *)
      destruct (nth_error (v_refs v) i) as [rr|]; [|injection E as <- <-; exact HI].
      destruct (nth_error (v_tables v) (rr_tbl rr)) as [tb|] eqn:Eb; [|injection E as <- <-; exact HI].
      unfold vrun in E. destruct (vDelete tb (rr_key rr) (v_tree v, v_idt v)) as [r [t' i']] eqn:Eo.
      pose proof (nth_error_In _ _ Eb) as Hb. destruct (handle_rel _ _ _ _ _ _ _ _ HI Hb) as [Er Hrr].
      apply delete_eff in Eo as (_ & -> & _).
      pose proof (Inv_delete nu tid d _ _ _ _ (keyToItem (toRelationId (tb_tid tb)) (rr_key rr)) S HI) as K.
      assert (Inv nu tid d (fst (t_delete (v_tree v) (keyToItem (toRelationId (tb_tid tb)) (rr_key rr)))) (v_tables v) (v_rows v) (v_refs v)) as K'.
      { apply K. simpl. rewrite Er. unfold EngineTableId in Hrr. lia. }
      destruct r; injection E as <- <-; exact K'.
  Qed.
End InvStep.
