(** Names, keys, types and the like: what has been read. *)

From Verif Require Import ModelParser SpecParser SpecAccepts LemmasBase LemmasListRun LemmasSound.

Section Names.
  Variable id : bytes -> Z.
  Variable name : Z -> bytes.
  Local Notation sound := (sound id name).
  Local Notation R := KReserved.
  Local Notation I := KIdent.

  Lemma S_schemaName : sound parseSchemaName (fun x ts _ => schema_name x ts).
  Proof.
    intros p a C. unfold parseSchemaName. st. st.
    - st. fin [I i; KRune tDot; I i0]. constructor.
    - fin [I i]. constructor.
  Qed.
  Lemma S_tableName : sound parseTableName (fun x ts _ => table_name x ts).
  Proof.
    intros p a C. unfold parseTableName. st. st.
    - st. st.
      + st. fin [I i; KRune tDot; I i0; KRune tDot; I i1]. constructor.
      + fin [I i; KRune tDot; I i0]. constructor.
    - fin [I i]. constructor.
  Qed.
  Lemma S_alias : sound (parseAlias false) (fun x ts _ => opt_alias x ts).
  Proof.
    intros p a C. unfold parseAlias. st.
    - one_of H. st. st. fin [R kAS; I i]. constructor. constructor.
    - st. destruct t; try (st; fin (@nil tok); constructor). fin [I id0]. constructor. constructor.
  Qed.
  Lemma S_alias_required : sound (parseAlias true) (fun x ts _ => some_alias x ts).
  Proof.
    intros p a C. unfold parseAlias. st.
    - one_of H. st. st. fin [R kAS; I i]. constructor.
    - st. destruct t; try exact Logic.I. fin [I id0]. constructor.
  Qed.

  Lemma S_tableAlias : sound parseTableAlias (fun x ts _ => a_from_operand id name x ts).
  Proof.
    intros p a C. unfold parseTableAlias. use_ S_tableName as tn ts a1 H1. st.
    - st. use_ S_alias as al ts2 a2 H2. fin (ts ++ KRune tAtSign :: I i :: ts2). now constructor.
    - use_ S_alias as al ts2 a2 H2. fin (ts ++ ts2). now constructor.
  Qed.

  (** Lists that are built from the left. *)
  Lemma names_snoc l ts i : names l ts -> names (l ++ [i]) (ts ++ [KRune tComma; I i]).
  Proof. induction 1; cbn [app]; constructor; [constructor|assumption]. Qed.

  Definition after_comma (l : list Z) (ts : list tok) (l' : list Z) : Prop := exists i, ts = [I i; KRune tComma] /\ l' = l ++ [i].
  Definition at_paren (l : list Z) (ts : list tok) (l' : list Z) (_ : list tok) : Prop := exists i, ts = [I i; KRune tRParen] /\ l' = l ++ [i].
  Lemma columns_looped l ts x a : looped after_comma at_paren l ts x a -> exists l' ts', x = l ++ l' /\ ts = ts' ++ [KRune tRParen] /\ names l' ts'.
  Proof.
    induction 1 as [s ts x a (i & -> & ->)|s ts s' ts' x a (i & -> & ->) HL (l' & ts1 & -> & -> & H)].
    - exists [i], [I i]. repeat split; constructor.
    - exists (i :: l'), (I i :: KRune tComma :: ts1). rewrite <- app_assoc. repeat split. now constructor.
  Qed.
  Lemma S_columns n : sound (parseColumns n) (fun x ts _ => exists ts', ts = ts' ++ [KRune tRParen] /\ names x ts').
  Proof.
    apply sound_none. eapply sound_mono; [|eapply s_loop with (Go := after_comma) (Stop := at_paren)].
    - intros x ts a H. destruct (columns_looped _ _ _ _ H) as (l' & ts' & -> & -> & H'). now exists ts'.
    - intros s. apply sound_any. intros p a C. st. st.
      + fin [I i; KRune tRParen]. now exists i.
      + st. fin [I i; KRune tComma]. now exists i.
  Qed.
  Lemma S_columnAliases n : sound (parseColumnAliases n) (fun x ts _ => opt_names x ts).
  Proof.
    intros p a C. unfold parseColumnAliases. apply s_end. st. st.
    - use_ S_columns as x ts a1 (ts' & -> & H). fin (KRune tLParen :: ts' ++ [KRune tRParen]). now constructor.
    - st. fin (@nil tok). constructor.
  Qed.

  Lemma mem_in i l : mem i l = false -> ~ In i l.
  Proof. intros H K. assert (E : mem i l = true) by (apply existsb_exists; exists i; split; [exact K|apply Z.eqb_refl]). congruence. Qed.
  Lemma nodup_snoc (l : list Z) i : NoDup l -> ~ In i l -> NoDup (l ++ [i]).
  Proof.
    intros H K. apply NoDup_rev in H. rewrite <- (rev_involutive (l ++ [i])). apply NoDup_rev. rewrite rev_app_distr. cbn. constructor; [|exact H]. now rewrite <- in_rev.
  Qed.

  Definition after_comma_d (l : list Z) (ts : list tok) (l' : list Z) : Prop := exists i, ts = [I i; KRune tComma] /\ l' = l ++ [i] /\ ~ In i l.
  Definition at_paren_d (l : list Z) (ts : list tok) (l' : list Z) (_ : list tok) : Prop := exists i, ts = [I i; KRune tRParen] /\ l' = l ++ [i] /\ ~ In i l.
  Lemma distinct_looped l ts x a : looped after_comma_d at_paren_d l ts x a -> exists l' ts', x = l ++ l' /\ ts = ts' ++ [KRune tRParen] /\ names l' ts' /\ (NoDup l -> NoDup x).
  Proof.
    induction 1 as [s ts x a (i & -> & -> & K)|s ts s' ts' x a (i & -> & -> & K) HL (l' & ts1 & -> & -> & H & D)].
    - exists [i], [I i]. split; [reflexivity|]. split; [reflexivity|]. split; [constructor|]. intros. now apply nodup_snoc.
    - exists (i :: l'), (I i :: KRune tComma :: ts1). split; [now rewrite <- app_assoc|]. split; [reflexivity|]. split; [now constructor|]. intros. apply D. now apply nodup_snoc.
  Qed.
  Lemma S_distinct n : sound (parseDistinctColumns n) (fun x ts _ => exists ts', ts = ts' ++ [KRune tRParen] /\ names x ts' /\ NoDup x).
  Proof.
    apply sound_none. eapply sound_mono; [|eapply s_loop with (Go := after_comma_d) (Stop := at_paren_d)].
    - intros x ts a H. destruct (distinct_looped _ _ _ _ H) as (l' & ts' & -> & -> & H' & D). exists ts'. split; [reflexivity|]. split; [exact H'|]. apply D. constructor.
    - intros s. apply sound_any. intros p a C. st. destruct (mem i s) eqn:E; [exact Logic.I|]. apply mem_in in E. st; cbn [Z.eqb Pos.eqb].
      + fin [I i; KRune tComma]. now exists i.
      + fin [I i; KRune tRParen]. now exists i.
  Qed.

  (** ** Keys *)

  Definition key_step (l : list Z * list bool) (ts : list tok) (l' : list Z * list bool) : Prop :=
    exists i r td, ts = I i :: td ++ [KRune tComma] /\ l' = (fst l ++ [i], snd l ++ [r]) /\ direction r td /\ ~ In i (fst l).
  Definition key_stop (u : bool) (l : list Z * list bool) (ts : list tok) (k : indexkey) (_ : list tok) : Prop :=
    exists i r td, ts = I i :: td ++ [KRune tRParen] /\ k = {| ik_unique := u; ik_columns := fst l ++ [i]; ik_reverse := snd l ++ [r] |} /\ direction r td /\ ~ In i (fst l).
  Lemma key_looped u l ts k a : looped key_step (key_stop u) l ts k a ->
    exists l' rs ts', k = {| ik_unique := u; ik_columns := fst l ++ l'; ik_reverse := snd l ++ rs |} /\ ts = ts' ++ [KRune tRParen] /\ key_columns l' rs ts' /\ (NoDup (fst l) -> NoDup (ik_columns k)).
  Proof.
    induction 1 as [s ts x a (i & r & td & -> & -> & Hd & K)|s ts s' ts' x a (i & r & td & -> & -> & Hd & K) HL (l' & rs & ts1 & -> & -> & H & D)].
    - exists [i], [r], (I i :: td). split; [reflexivity|]. split; [reflexivity|]. split; [now constructor|]. intros. now apply nodup_snoc.
    - cbn [fst snd] in *. exists (i :: l'), (r :: rs), (I i :: td ++ KRune tComma :: ts1). rewrite <- !app_assoc in *. split; [reflexivity|]. split; [lists|]. split; [now constructor|].
      intros Hn. apply D. now apply nodup_snoc.
  Qed.
  Lemma S_key n u : sound (parseKey n u) (fun x ts _ => index_key u x ts).
  Proof.
    intros p a C. unfold parseKey. st. eapply s_tail; [|assumption|].
    - apply sound_none. eapply s_loop with (Go := key_step) (Stop := key_stop u).
      intros [cols rv]. apply sound_any. clear. intros p a C. st. destruct (mem i cols) eqn:E; [exact Logic.I|]. apply mem_in in E. st.
      + one_of H. st. st; cbn [Z.eqb Pos.eqb].
        * fin [I i; R kASC; KRune tComma]. exists i, false, [R kASC]. repeat split; auto using direction.
        * fin [I i; R kASC; KRune tRParen]. exists i, false, [R kASC]. repeat split; auto using direction.
      + st. st.
        * one_of H. st. st; cbn [Z.eqb Pos.eqb].
          -- fin [I i; R kDESC; KRune tComma]. exists i, true, [R kDESC]. repeat split; auto using direction.
          -- fin [I i; R kDESC; KRune tRParen]. exists i, true, [R kDESC]. repeat split; auto using direction.
        * st. st; cbn [Z.eqb Pos.eqb].
          -- fin [I i; KRune tComma]. exists i, false, []. repeat split; auto using direction.
          -- fin [I i; KRune tRParen]. exists i, false, []. repeat split; auto using direction.
    - intros x ts a' E HL C'. subst. destruct (key_looped _ _ _ _ _ HL) as (l' & rs & ts' & -> & -> & Hk & D). cbn [fst snd app] in *.
      fin (KRune tLParen :: ts' ++ [KRune tRParen]). constructor; [exact Hk|]. apply D. constructor.
  Qed.
  (** The columns of a key have been read. *)
  Lemma key_read l rs ts i : key_columns l rs ts -> In i l -> In (I i) ts.
  Proof.
    induction 1 as [j r ts Hd|j r ts l rs ts' Hd Hk IH]; cbn [In]; intros [<-|H]; auto; try contradiction. right. apply in_or_app. right. right. now apply IH.
  Qed.
  Lemma has_in need p : (forall i, In i need -> In (I i) p) -> has need p.
  Proof. intros H i Hi. apply existsb_exists. exists (I i). split; [now apply H|apply Z.eqb_refl]. Qed.

  (** ** Foreign keys *)

  Lemma S_refAction : sound parseRefAction (fun x ts _ => ref_action x ts).
  Proof.
    intros p a C. unfold parseRefAction. st. one_of H; cbn [Z.eqb Pos.eqb].
    - st. one_of H. fin [R kNO; R kACTION]. constructor.
    - fin [R kRESTRICT]. constructor.
    - fin [R kCASCADE]. constructor.
    - st. one_of H; cbn [Z.eqb Pos.eqb].
      + fin [R kSET; R kNULL]. constructor.
      + fin [R kSET; R kDEFAULT]. constructor.
  Qed.

  Definition actions_step (s : foreignkey * bool * bool) (ts : list tok) (s' : foreignkey * bool * bool) : Prop :=
    let '(fk, d, u) := s in
    exists x tx, ref_action x tx /\
      ((d = false /\ ts = R kON :: R kDELETE :: tx /\ s' = (set_ondelete fk x, true, u)) \/
       (u = false /\ ts = R kON :: R kUPDATE :: tx /\ s' = (set_onupdate fk x, d, true))).
  Definition actions_stop (s : foreignkey * bool * bool) (ts : list tok) (fk : foreignkey) (_ : list tok) : Prop :=
    ts = [] /\ fk = fst (fst s).
  Lemma S_onActions n cn c tn rc : sound (parseOnActions n (newForeignKey cn c tn rc)) (fun x ts _ => exists d u, on_actions d u ts /\
    x = {| fk_name := cn; fk_cols := c; fk_ref := tn; fk_refcols := rc; fk_ondelete := d; fk_onupdate := u |}).
  Proof.
    apply sound_none. eapply sound_mono; [|eapply s_loop with (Go := actions_step) (Stop := actions_stop)].
    - intros x ts a H. inversion H as [s1 t1 x1 a1 (-> & ->)|s1 t1 s2 t2 x1 a1 G L]; subst; [exists NoAction, NoAction; split; [constructor|reflexivity]|].
      destruct G as (y & ty & Hy & [(_ & -> & ->)|(_ & -> & ->)]).
      + inversion L as [s3 t3 x3 a3 (-> & ->)|s3 t3 s4 t4 x3 a3 G L2]; subst; [exists y, NoAction; split; [|reflexivity]; rewrite app_nil_r; now constructor|].
        destruct G as (z & tz & Hz & [(K & _)|(_ & -> & ->)]); [discriminate|].
        inversion L2 as [s5 t5 x5 a5 (-> & ->)|s5 t5 s6 t6 x5 a5 G L3]; subst; [exists y, z; split; [|reflexivity]; rewrite app_nil_r; now constructor|].
        destruct G as (? & ? & _ & [(K & _)|(K & _)]); discriminate.
      + inversion L as [s3 t3 x3 a3 (-> & ->)|s3 t3 s4 t4 x3 a3 G L2]; subst; [exists NoAction, y; split; [|reflexivity]; rewrite app_nil_r; now constructor|].
        destruct G as (z & tz & Hz & [(_ & -> & ->)|(K & _)]); [|discriminate].
        inversion L2 as [s5 t5 x5 a5 (-> & ->)|s5 t5 s6 t6 x5 a5 G L3]; subst; [exists z, y; split; [|reflexivity]; rewrite app_nil_r; now constructor|].
        destruct G as (? & ? & _ & [(K & _)|(K & _)]); discriminate.
    - intros [[fk d] u]. apply sound_any. clear. intros p a C. st.
      + one_of H. st. one_of H; cbn [Z.eqb Pos.eqb].
        * destruct d; [exact Logic.I|]. use_ S_refAction as x ts a1 H1. fin (R kON :: R kDELETE :: ts). exists x, ts. auto.
        * destruct u; [exact Logic.I|]. use_ S_refAction as x ts a1 H1. fin (R kON :: R kUPDATE :: ts). exists x, ts. auto.
      + fin (@nil tok). now split.
  Qed.
  Lemma S_foreignKey n cn : sound (parseForeignKey n cn) (fun x ts _ => foreign_key cn x ts).
  Proof.
    intros p a C. unfold parseForeignKey. st. use_ S_columns as c t1 a1 (tc & -> & H1). st. one_of H. use_ S_tableName as tn t2 a2 H2. st.
    - use_ S_columns as rc t3 a3 (tc' & -> & H3). use_ S_onActions as fk t4 a4 (d & u & H4 & ->).
      fin (KRune tLParen :: tc ++ KRune tRParen :: R kREFERENCES :: t2 ++ (KRune tLParen :: tc' ++ [KRune tRParen]) ++ t4). constructor; auto. now constructor.
    - st. use_ S_onActions as fk t4 a4 (d & u & H4 & ->).
      fin (KRune tLParen :: tc ++ KRune tRParen :: R kREFERENCES :: t2 ++ [] ++ t4). constructor; auto. constructor.
  Qed.

  (** ** The types of columns *)

  Lemma column_type_in i ct : findColumnType i = Some ct -> In (i, ct) column_types.
  Proof.
    unfold findColumnType. destruct (find _ _) as [[j c]|] eqn:E; [|discriminate]. intros [= <-]. apply find_some in E. destruct E as [H K]. cbn in K. apply Z.eqb_eq in K. subst j. exact H.
  Qed.
  Lemma S_columnType : sound parseColumnType (fun x ts _ => column_type x ts).
  Proof.
    intros p a C. unfold parseColumnType. st. destruct (findColumnType i) as [ct|] eqn:E; [|exact Logic.I]. apply column_type_in in E.
    destruct (i =? iDOUBLE) eqn:D.
    - apply Z.eqb_eq in D. subst i. assert (T : ct_type ct = Float64Type) by (cbn in E; repeat destruct E as [E|E]; try discriminate E; try contradiction E; injection E as <-; reflexivity). rewrite T.
      st. st.
      + st. fin [I iDOUBLE; I iPRECISION]. now constructor.
      + st. fin [I iDOUBLE]. now constructor.
    - st. destruct ct as [t s f nn]. cbn [ct_type].
      assert (N : nn = false) by (cbn in E; repeat destruct E as [E|E]; try contradiction E; now injection E as <-). subst nn.
      assert (K : t = StringType \/ t = BytesType -> wpl id name
        (let+ paren := maybeToken tLParen in if paren then let+ i := expectInteger 0 MaxColumnSize in expectTokens [tRParen];+ ARet (set_size {| ct_type := t; ct_size := s; ct_fixed := f; ct_notnull := false |} (u32 i)) else ARet {| ct_type := t; ct_size := s; ct_fixed := f; ct_notnull := false |}) (I i :: p) r
        (read_back p (I i :: r) (fun x ts _ => column_type x ts))).
      { intros T. st.
        - st. st. unfold set_size. cbn [ct_type ct_fixed ct_notnull]. replace (u32 i0) with i0 by (unfold MaxColumnSize in H; unfold u32; symmetry; apply Z.mod_small; lia).
          fin [I i; KRune tLParen; KInteger i0; KRune tRParen]. econstructor; eauto.
        - fin [I i]. now constructor. }
      destruct t; try (now apply K; auto); fin [I i]; now constructor.
  Qed.

  (** ** SHOW *)

  Lemma table_name_read tn ts : table_name tn ts -> In (I (tn_table tn)) ts /\ (tn_schema tn <> 0 -> In (I (tn_schema tn)) ts).
  Proof. destruct 1; cbn; intuition. Qed.
  Lemma schema_name_read sn ts : schema_name sn ts -> In (I (sn_schema sn)) ts.
  Proof. destruct 1; cbn; intuition. Qed.
  Lemma name_in i ts p : In (I i) ts -> existsb (is_name i) (rev ts ++ p) = true.
  Proof. intros H. apply existsb_exists. exists (I i). split; [apply in_or_app; left; now apply -> in_rev|apply Z.eqb_refl]. Qed.

  Lemma S_showFromTable : sound parseShowFromTable (fun x ts _ => table_name (fst x) ts /\ snd x = schema_is id name (tn_schema (fst x))).
  Proof.
    intros p a C. unfold parseShowFromTable. use_ S_tableName as tn ts a1 H1. st. destruct (tn_schema tn =? 0) eqn:E.
    - fin ts. split; [exact H1|]. cbn [fst snd]. unfold schema_is. now rewrite E.
    - apply s_name; [apply name_in, table_name_read; [exact H1|]; now apply Z.eqb_neq in E|]. fin ts. split; [exact H1|]. cbn [fst snd]. unfold schema_is. now rewrite E.
  Qed.
  Lemma S_show : sound parseShow (fun x ts _ => a_show id name x ts).
  Proof.
    intros p a C. unfold parseShow. st.
    destruct t as [| | |i|k| | | | | |]; try exact Logic.I.
    {
      destruct ((i =? iCOLUMNS) || (i =? iCONSTRAINTS)) eqn:E1.
      - assert (K : In i [iCOLUMNS; iCONSTRAINTS]) by (apply orb_true_iff in E1; destruct E1 as [E1|E1]; apply Z.eqb_eq in E1; subst i; cbn; tauto). clear E1.
        assert (C' : clean (I i :: p)) by reflexivity. st. one_of H0. use_ S_showFromTable as [tn e] ts a1 [H1 H2]. cbn [fst snd] in *. st. apply s_name.
        + apply name_in. now apply table_name_read.
        + fin (I i :: R kFROM :: ts). rewrite H2. apply ash_show. now constructor.
      - destruct (i =? iCONFIG) eqn:E2; [apply Z.eqb_eq in E2; subst i; st; st; st; st; fin [I iCONFIG]; apply ash_show; constructor|].
        destruct (i =? iDATABASES) eqn:E3; [apply Z.eqb_eq in E3; subst i; fin [I iDATABASES]; apply ash_show; constructor|].
        assert (C' : clean (I i :: p)) by reflexivity.
        destruct (i =? iSCHEMAS) eqn:E4.
        { apply Z.eqb_eq in E4. subst i. st.
          - one_of H0. st. fin [I iSCHEMAS; R kFROM; I i]. apply ash_show. constructor.
          - st. fin [I iSCHEMAS]. apply ash_show. constructor. }
        destruct (i =? iTABLES) eqn:E5.
        { apply Z.eqb_eq in E5. subst i. st.
          - one_of H0. use_ S_schemaName as sn ts a1 H1. st. apply s_name; [apply name_in; now apply schema_name_read|]. fin (I iTABLES :: R kFROM :: ts). apply ash_show. now constructor.
          - st. fin [I iTABLES]. apply ash_show. constructor. }
        fin [I i]. apply ash_show. constructor. apply orb_false_iff in E1. destruct E1 as [E1 E1'].
        cbn. intros K. repeat destruct K as [<-|K]; try discriminate. contradiction. }
    cbn in H. replace (k =? iCOLUMNS) with false by (symmetry; apply Z.eqb_neq; lia). replace (k =? iCONSTRAINTS) with false by (symmetry; apply Z.eqb_neq; lia).
    replace (k =? iCONFIG) with false by (symmetry; apply Z.eqb_neq; lia). replace (k =? iDATABASES) with false by (symmetry; apply Z.eqb_neq; lia).
    replace (k =? iSCHEMAS) with false by (symmetry; apply Z.eqb_neq; lia). replace (k =? iTABLES) with false by (symmetry; apply Z.eqb_neq; lia).
    cbn [orb]. fin [R k]. now constructor.
  Qed.
End Names.
