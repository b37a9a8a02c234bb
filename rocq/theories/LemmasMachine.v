(** What follows from the catalogue being sets and maps: names, numbers of
    tables, and what is left after dropping. *)

From Verif Require Import ModelEngine SpecEngine LemmasBase LemmasKey LemmasValue LemmasIdent LemmasTree LemmasStore LemmasWorld
  LemmasHistory LemmasSerial LemmasTable LemmasContents LemmasTableFacts LemmasTableCalls LemmasTableTypes LemmasRows LemmasTyped
  LemmasExec LemmasSelect LemmasTypedTable LemmasCatalogue LemmasSystemTables LemmasEngineOps LemmasEngineCalls LemmasEngineInit
  LemmasEngine.

Section Machine.
  Context {E : EGobLib}.

  Definition everywhere (P : catalogue -> Prop) (m : machine) : Prop :=
    P (m_cat m) /\ forall o c, m_cur m = Some (o, c) -> P c.

  Lemma alone_keeps (P : catalogue -> Prop) m f : (forall c, P c -> P (snd (f c))) -> everywhere P m -> everywhere P (snd (alone m f)).
  Proof.
    intros Hf [H1 H2]. unfold alone. destruct (m_cur m) as [[o c]|] eqn:Ec; [split; [exact H1|]; cbn [snd]; rewrite Ec; exact H2|].
    specialize (Hf _ H1). destruct (f (m_cat m)) as [[| | | | | |] c]; cbn [snd] in *; (split; cbn [m_cat m_cur]; [assumption|]);
      try (intros ? ? [=]; fail); try (intros ? ? [= _ <-]; assumption). rewrite Ec. intros ? ? [=].
  Qed.
  Lemma within_keeps (P : catalogue -> Prop) m k f : (forall c, P c -> P (snd (f c))) -> everywhere P m -> everywhere P (snd (within m k f)).
  Proof.
    intros Hf [H1 H2]. unfold within. destruct (_ <? _)%nat; [|now split]. destruct (m_cur m) as [[[j|] c]|] eqn:Ec;
      [|cbn [snd]; split; [|rewrite Ec]; assumption|cbn [snd]; split; [|rewrite Ec]; assumption].
    destruct (j =? k)%nat; [|cbn [snd]; split; [|rewrite Ec]; assumption]. cbn [snd]. split; cbn [m_cat m_cur]; [exact H1|].
    intros o c2 [= _ <-]. apply Hf. eapply H2. reflexivity.
  Qed.
  Lemma complete_keeps (P : catalogue -> Prop) m k f : (forall c, P c -> P (f c)) -> everywhere P m -> everywhere P (snd (complete_with m k f)).
  Proof.
    intros Hf [H1 H2]. unfold complete_with. destruct (_ <? _)%nat; [|now split]. destruct (m_cur m) as [[[j|] c]|] eqn:Ec;
      [|cbn [snd]; split; [|rewrite Ec]; assumption|cbn [snd]; split; [|rewrite Ec]; assumption].
    destruct (j =? k)%nat; [|cbn [snd]; split; [|rewrite Ec]; assumption]. cbn [snd]. split; cbn [m_cat m_cur]; [|intros ? ? [=]].
    apply Hf. eapply H2. reflexivity.
  Qed.

  Lemma mstep_keeps (P : catalogue -> Prop) m c :
    (forall d, forall c, P c -> P (snd (create_database d c))) ->
    (forall d b, forall c, P c -> P (snd (drop_database d b c))) ->
    (forall d s, forall c, P c -> P (snd (create_schema d s c))) ->
    (forall d s b, forall c, P c -> P (snd (drop_schema d s b c))) ->
    (forall k d s n td, c = NCreateTable k d s n td -> forall c, P c -> P (snd (create_table d s n td c))) ->
    everywhere P m -> everywhere P (snd (mstep m c)).
  Proof.
    intros Q1 Q2 Q3 Q4 Q5 H.
    assert (forall d, forall c, P c -> P (snd (list_schemas d c))) as Q6.
    { intros d c0. unfold list_schemas. destruct (negb _); [auto|]. destruct (negb _); auto. }
    assert (forall d s n, forall c, P c -> P (snd (open_table d s n c))) as Q7.
    { intros d s n c0. unfold open_table. destruct (negb _); [auto|]. destruct (find_table _ _) as [[? ?]|]; auto. }
    destruct c; cbn [mstep]; auto using alone_keeps, within_keeps.
    - destruct options; [exact H|]. auto using alone_keeps.
    - destruct (m_cur m) as [[o c]|] eqn:Ec; [exact H|]. destruct H as [H1 H2]. split; cbn [snd m_cat m_cur]; [exact H1|].
      intros o c [= _ <-]. exact H1.
    - apply complete_keeps; auto.
    - apply complete_keeps; [|exact H]. intros c _. exact (proj1 H).
    - apply within_keeps; [|exact H]. eapply Q5. reflexivity.
  Qed.

  (** ** Names are unique *)
  Definition unique (c : catalogue) : Prop := NoDup (c_databases c) /\ NoDup (c_schemas c) /\ NoDup (map fst (c_tables c)).

  Lemma has_In {A} (eqb : A -> A -> bool) (Heq : forall a b, eqb a b = true <-> a = b) l a : has eqb l a = true <-> In a l.
  Proof.
    unfold has. rewrite existsb_exists. split.
    - intros (b & H1 & H2). apply Heq in H2. now subst.
    - intros H. exists a. split; [exact H|]. now apply Heq.
  Qed.
  Lemma bytes_eqb_spec a b : bytes_eqb a b = true <-> a = b.
  Proof. apply bytes_eqb_eq. Qed.
  Lemma schema_eqb_spec a b : schema_eqb a b = true <-> a = b.
  Proof.
    destruct a as [a1 a2], b as [b1 b2]. unfold schema_eqb. cbn [fst snd]. rewrite andb_true_iff, !bytes_eqb_spec. split; [intros [-> ->]; reflexivity|].
    intros [= -> ->]. auto.
  Qed.
  Lemma table_eqb_spec a b : table_eqb a b = true <-> a = b.
  Proof.
    destruct a as [a1 a2], b as [b1 b2]. unfold table_eqb. cbn [fst snd]. rewrite andb_true_iff, bytes_eqb_spec, schema_eqb_spec.
    split; [intros [-> ->]; reflexivity|]. intros [= -> ->]. auto.
  Qed.

  Lemma unique_reach n m : mreach n m -> everywhere unique m.
  Proof.
    induction 1 as [|n m c H IH].
    - split; [|intros ? ? [=]]. cbn [first_machine m_cat]. unfold unique.
      split; [|split]; cbn; repeat (constructor; [intros H; cbn in H; repeat (destruct H as [H|H]; [vm_compute in H; discriminate|]); exact H|]); constructor.
    - apply mstep_keeps; [| | | | |exact IH]; intros; match goal with U : unique ?c |- _ => destruct c as [db sc tb nx]; destruct U as (U1 & U2 & U3) end; unfold unique in *; cbn [c_databases c_schemas c_tables c_next snd fst with_databases with_schemas with_tables with_next map] in *.
      + unfold create_database; cbn [c_databases c_schemas c_tables c_next snd fst with_databases with_schemas with_tables with_next map]. destruct (negb _); [auto|]. destruct (has bytes_eqb _ _) eqn:Eh; cbn [c_databases c_schemas c_tables c_next snd fst with_databases with_schemas with_tables with_next map]; [auto|]. split; [|auto].
        constructor; [|exact U1]. rewrite <- (has_In _ bytes_eqb_spec). congruence.
      + unfold drop_database; cbn [c_databases c_schemas c_tables c_next snd fst with_databases with_schemas with_tables with_next map]. destruct (negb _); [auto|]. destruct (has bytes_eqb _ _); cbn [c_databases c_schemas c_tables c_next snd fst with_databases with_schemas with_tables with_next map]; [|destruct b; auto]. split; [|auto]. now apply NoDup_filter.
      + unfold create_schema; cbn [c_databases c_schemas c_tables c_next snd fst with_databases with_schemas with_tables with_next map]. destruct (negb _); [auto|]. destruct (negb _); [auto|]. destruct (negb _); [auto|].
        destruct (has schema_eqb _ _) eqn:Eh; cbn [c_databases c_schemas c_tables c_next snd fst with_databases with_schemas with_tables with_next map]; [auto|]. split; [exact U1|]. split; [|auto].
        constructor; [|exact U2]. rewrite <- (has_In _ schema_eqb_spec). congruence.
      + unfold drop_schema; cbn [c_databases c_schemas c_tables c_next snd fst with_databases with_schemas with_tables with_next map]. destruct (negb _); [auto|]. destruct (has schema_eqb _ _); cbn [c_databases c_schemas c_tables c_next snd fst with_databases with_schemas with_tables with_next map]; [|destruct b; auto]. split; [exact U1|]. split; [|auto]. now apply NoDup_filter.
      + unfold create_table; cbn [c_databases c_schemas c_tables c_next snd fst with_databases with_schemas with_tables with_next map]. destruct (negb _); [auto|]. destruct (negb _); [auto|]. destruct (negb _); [auto|].
        destruct (has table_eqb _ _) eqn:Eh; cbn [c_databases c_schemas c_tables c_next snd fst with_databases with_schemas with_tables with_next map]; [auto|]. split; [exact U1|]. split; [exact U2|].
        constructor; [|exact U3]. rewrite <- (has_In _ table_eqb_spec). congruence.
  Qed.

  (** ** Numbers of tables *)
  Definition is_system (e : (bytes * bytes * bytes) * (Z * tabledef)) : Prop :=
    In (fst e, fst (snd e)) (map (fun e => (fst e, fst (snd e))) (c_tables first_catalogue)).
  Definition cat_ids (n : nat) (c : catalogue) : Prop :=
    512 <= c_next c <= 512 + Z.of_nat n /\ NoDup (map (fun e => fst (snd e)) (c_tables c)) /\
    Forall (fun e => 511 < fst (snd e) < c_next c \/ is_system e) (c_tables c).

  Lemma cat_ids_same n c c' : c_next c' = c_next c -> c_tables c' = c_tables c -> cat_ids n c -> cat_ids n c'.
  Proof. intros H1 H2. unfold cat_ids. now rewrite H1, H2. Qed.
  Lemma cat_ids_more n c : cat_ids n c -> cat_ids (S n) c.
  Proof. intros (H1 & H2 & H3). split; [lia|]. auto. Qed.

  Lemma system_small e : is_system e -> fst (snd e) < 512.
  Proof. intros H. unfold is_system in H. cbn [first_catalogue c_tables map] in H. repeat (destruct H as [[= _ H]|H]; [cbn in *; lia|]). destruct H. Qed.

  Lemma ids_create n d s nm td c : 512 + Z.of_nat (S n) < 2 ^ 63 -> cat_ids n c -> cat_ids (S n) (snd (create_table d s nm td c)).
  Proof.
    intros Hn H. pose proof (cat_ids_more _ _ H) as H'. destruct H as (H1 & H2 & H3). unfold create_table. destruct (negb _); [exact H'|].
    destruct (negb _); [exact H'|].
    assert (i64 (c_next c + 1) = c_next c + 1) as Ei.
    { apply i64_small. unfold is_i64. lia. }
    assert (cat_ids (S n) (with_next c (i64 (c_next c + 1)))) as Hw.
    { rewrite Ei. split; [cbn; lia|]. split; [exact H2|]. eapply Forall_impl; [|exact H3]. intros e [K|K]; [left; cbn; lia|auto]. }
    destruct (negb _); [exact Hw|]. destruct (has table_eqb _ _); [exact Hw|]. cbn [snd].
    destruct Hw as (W1 & W2 & W3). split; [exact W1|]. split.
    - cbn. constructor; [|exact H2]. rewrite in_map_iff. intros (e & He & Hi). rewrite Forall_forall in H3. destruct (H3 _ Hi) as [K|K]; [lia|].
      apply system_small in K. lia.
    - cbn. constructor; [left; cbn; rewrite Ei; lia|]. exact W3.
  Qed.

  Lemma ids_reach n m : mreach n m -> 512 + Z.of_nat n < 2 ^ 63 -> everywhere (cat_ids n) m.
  Proof.
    induction 1 as [|n m c H IH]; intros Hn.
    - split; [|intros ? ? [=]]. split; [cbn; lia|]. split.
      + cbn. repeat (constructor; [cbn; lia|]). constructor.
      + apply Forall_forall. intros e He. right. unfold is_system. apply in_map_iff. now exists e.
    - assert (everywhere (cat_ids n) m) as IH' by (apply IH; destruct c; lia).
      assert (forall c', everywhere (cat_ids n) m -> (forall k d s nm td, c' <> NCreateTable k d s nm td) -> everywhere (cat_ids n) (snd (mstep m c'))) as K.
      { intros c' Hm Hc. apply mstep_keeps; [| | | | |exact Hm].
        - intros d c0. apply cat_ids_same; unfold create_database; destruct (negb _); [auto|destruct (has bytes_eqb _ _); auto|auto|destruct (has bytes_eqb _ _); auto].
        - intros d b c0. unfold drop_database. destruct (negb _); [auto|]. destruct (has bytes_eqb _ _); [apply cat_ids_same; reflexivity|destruct b; auto].
        - intros d s c0. unfold create_schema. destruct (negb _); [auto|]. destruct (negb _); [auto|]. destruct (negb _); [auto|].
          destruct (has schema_eqb _ _); [auto|apply cat_ids_same; reflexivity].
        - intros d s b c0. unfold drop_schema. destruct (negb _); [auto|]. destruct (has schema_eqb _ _); [apply cat_ids_same; reflexivity|destruct b; auto].
        - intros k d s nm td ->. now destruct (Hc k d s nm td). }
      destruct c; try (apply K; [exact IH'|discriminate]). cbn [mstep]. 
      assert (everywhere (cat_ids n) m -> everywhere (cat_ids (S n)) (snd (within m k (create_table d s n0 td)))) as K2; [|auto].
      intros [H1 H2]. assert (everywhere (cat_ids (S n)) m) as H3.
      { split; [now apply cat_ids_more|]. intros o c Hc. apply cat_ids_more. exact (H2 o c Hc). }
      unfold within. destruct (_ <? _)%nat; [|exact H3]. destruct (m_cur m) as [[[j|] c]|] eqn:Ec; [|exact H3|exact H3].
      destruct (j =? k)%nat; [|exact H3].
      cbn [snd]. split; cbn [m_cat m_cur]; [now apply cat_ids_more|]. intros o c2 [= _ <-]. apply ids_create; [exact Hn|]. eapply H2. reflexivity.
  Qed.

  Lemma ids_stored n c t : holds t c -> cat_ids n c -> numbered n t.
  Proof.
    intros [_ H1 _ _ H2] (H3 & H4 & H5). exists (c_next c). split; [exact H1|]. split; [exact H3|].
    split.
    - eapply Permutation_NoDup; [apply Permutation_sym, Permutation_map, H2|]. rewrite map_map.
      assert (map (fun e : bytes * bytes * bytes * (Z * tabledef) => nth 3 (let '(d, s, n, (id, td)) := e in
        [VString d; VString s; VString n; VInt id; VBytes (x_egob_encode (wire_of td))]) VNull) (c_tables c) =
        map VInt (map (fun e => fst (snd e)) (c_tables c))) as ->.
      { rewrite map_map. apply map_ext. intros [[[? ?] ?] [? ?]]. reflexivity. }
      apply FinFun.Injective_map_NoDup; [|exact H4]. intros a b [= ->]. reflexivity.
    - apply Forall_forall. intros r Hr. apply (Permutation_in _ H2) in Hr. apply in_map_iff in Hr as ([[[d s] nm] [id td]] & <- & Hi).
      rewrite Forall_forall in H5. destruct (H5 _ Hi) as [K|K]; [left; exists id; auto|]. right. unfold is_system in K.
      cbn [first_catalogue c_tables map system_table fst snd In] in K. unfold system_row. cbn [firstn].
      destruct K as [[= <- <- <- <-]|[[= <- <- <- <-]|[[= <- <- <- <-]|[[= <- <- <- <-]|[]]]]]; auto.
  Qed.
End Machine.

(** ** What the catalogue says about the engine *)
Section ReachM.
  Context {X : FloatLib} {L : CaseLib} {G : GobLib} {F : Float32Lib} {E : EGobLib}.
  Context (HX : FloatLib_ok X) (HG : GobLib_ok G) (HL : CaseLib_ok L) (HF : Float32Lib_ok F) (HE : EGobLib_ok E).

  Lemma reach_state I n s : ereach I n s -> exists h, ran h (e_w s) /\ idt_ok (e_idt s).
  Proof.
    intros Hr. destruct (ereach_inv HX HG HL HF HE I n s Hr) as (h & i0 & ths & m & H1 & H2 & H3 & H4 & H5). exists h. split; [exact (ei_ran _ _ _ _ _ H3)|].
    apply idreach_ok in H1. destruct H1 as [K _]. exact (proj1 (interns_ok _ _ (ei_interns _ _ _ _ _ H3) K)).
  Qed.

  (** The tree of a transaction is the one of the machine. *)
  Lemma represents_view I n s m x t : ereach I n s -> represents s m -> view (e_w s) x = Some t ->
    exists o c, m_cur m = Some (o, c) /\ holds t c.
  Proof.
    intros Hr [R1 R2 R3] Hv. destruct (reach_state I n s Hr) as (h & Rn & _). pose proof (ran_wok _ _ Rn) as K.
    pose proof (proj2 (active_view _ x K) (ex_intro _ t Hv)) as Ha.
    destruct (m_cur m) as [[o c]|]; [|destruct R3 as [R3 _]; now destruct (R3 x)].
    destruct R3 as (y & t' & Hv' & Hh & _). pose proof (proj2 (active_view _ y K) (ex_intro _ t' Hv')) as Ha'.
    pose proof (active_unique _ _ _ (ran_reachable _ _ Rn) Ha Ha') as <-. rewrite Hv in Hv'. injection Hv' as ->. eauto.
  Qed.

  Lemma numbered_lemma I n s : ereach I n s -> 512 + Z.of_nat n < 2 ^ 63 ->
    numbered n (committed (e_w s)) /\ forall x t, view (e_w s) x = Some t -> numbered n t.
  Proof.
    intros Hr Hn. destruct (catalogue_reached HX HG HL HF HE I n s Hr) as (m & Rm & Mr). destruct (ids_reach n m Mr Hn) as [H1 H2]. split.
    - eapply ids_stored; [exact (rp_committed _ _ Rm)|exact H1].
    - intros x t Hv. destruct (represents_view I n s m x t Hr Rm Hv) as (o & c & Hc & Hh). eapply ids_stored; [exact Hh|]. eapply H2. exact Hc.
  Qed.

  (** No name is there twice. *)
  Lemma unique_stored t c : holds t c -> unique c ->
    NoDup (rows_in t 17) /\ NoDup (rows_in t 18) /\ NoDup (map (firstn 3) (rows_in t 19)).
  Proof.
    intros [_ _ H1 H2 H3] (U1 & U2 & U3). split; [|split].
    - eapply Permutation_NoDup; [apply Permutation_sym, H1|]. apply FinFun.Injective_map_NoDup; [|exact U1]. intros a b [= ->]. reflexivity.
    - eapply Permutation_NoDup; [apply Permutation_sym, H2|]. apply FinFun.Injective_map_NoDup; [|exact U2].
      intros [a1 a2] [b1 b2] [= -> ->]. reflexivity.
    - eapply Permutation_NoDup; [apply Permutation_sym, Permutation_map, H3|].
      assert (map (firstn 3) (map (fun e : bytes * bytes * bytes * (Z * tabledef) => let '(d, s, n, (id, td)) := e in
        [VString d; VString s; VString n; VInt id; VBytes (x_egob_encode (wire_of td))]) (c_tables c)) =
        map (fun e => let '(d, s, n) := e in [VString d; VString s; VString n]) (map fst (c_tables c))) as ->.
      { rewrite !map_map. apply map_ext. intros [[[? ?] ?] [? ?]]. reflexivity. }
      apply FinFun.Injective_map_NoDup; [|exact U3]. intros [[a1 a2] a3] [[b1 b2] b3] [= -> -> ->]. reflexivity.
  Qed.
  Lemma unique_lemma I n s t : ereach I n s -> t = committed (e_w s) \/ (exists x, view (e_w s) x = Some t) ->
    NoDup (rows_in t 17) /\ NoDup (rows_in t 18) /\ NoDup (map (firstn 3) (rows_in t 19)).
  Proof.
    intros Hr Ht. destruct (catalogue_reached HX HG HL HF HE I n s Hr) as (m & Rm & Mr). destruct (unique_reach n m Mr) as [U1 U2].
    destruct Ht as [->|(x & Hv)].
    - eapply unique_stored; [exact (rp_committed _ _ Rm)|exact U1].
    - destruct (represents_view I n s m x t Hr Rm Hv) as (o & c & Hc & Hh). eapply unique_stored; [exact Hh|]. eapply U2. exact Hc.
  Qed.

  (** A call that fails changes no listing. *)
  Definition same_lists (c c' : catalogue) : Prop :=
    c_databases c' = c_databases c /\ c_schemas c' = c_schemas c /\ c_tables c' = c_tables c.
  Lemma failed_lists c d s n td b e c' : 
    (create_database d c = (NErr e, c') -> same_lists c c') /\ (drop_database d b c = (NErr e, c') -> same_lists c c') /\
    (create_schema d s c = (NErr e, c') -> same_lists c c') /\ (drop_schema d s b c = (NErr e, c') -> same_lists c c') /\
    (list_schemas d c = (NErr e, c') -> same_lists c c') /\
    (open_table d s n c = (NErr e, c') -> same_lists c c') /\ (create_table d s n td c = (NErr e, c') -> same_lists c c').
  Proof.
    assert (same_lists c c) as Hs by (repeat split).
    unfold create_database, drop_database, create_schema, drop_schema, list_schemas, open_table, create_table.
    repeat match goal with |- _ /\ _ => split end;
      repeat match goal with |- context [if ?x then _ else _] => destruct x | |- context [match find_table ?a ?b with _ => _ end] => destruct (find_table a b) as [[? ?]|] end;
      intros [=]; subst; auto; repeat split.
  Qed.
  Lemma failed_lemma I n s c e s' : ereach I n s -> known_call (e_idt s) c -> estep I s c = (EErr e, s') ->
    (forall tid, 17 <= tid <= 19 -> Permutation (rows_in (committed (e_w s')) tid) (rows_in (committed (e_w s)) tid)) /\
    (forall x t, view (e_w s') x = Some t -> exists y t0, view (e_w s) y = Some t0 /\
       forall tid, 17 <= tid <= 19 -> Permutation (rows_in t tid) (rows_in t0 tid)).
  Proof.
    intros Hr Hk Es. destruct (catalogue_reached HX HG HL HF HE I n s Hr) as (m & Rm & Mr).
    destruct (catalogue_lemma HX HG HL HF HE I n s m c _ s' Hr Rm Hk Es) as [Ha Rm'].
    assert (exists e', fst (mstep m (named (e_idt s) c)) = NErr e') as (e' & Hf).
    { destruct (fst (mstep m (named (e_idt s) c))) as [| e0| | | |l|id td]; cbn in Ha; try discriminate; [eauto| |]; destruct Ha as (? & ? & _); discriminate. }
    assert (forall t c1 t' c2, holds t c1 -> holds t' c2 -> same_lists c1 c2 -> forall tid, 17 <= tid <= 19 -> Permutation (rows_in t' tid) (rows_in t tid)) as Hp.
    { intros t c1 t' c2 [_ _ A1 A2 A3] [_ _ B1 B2 B3] (S1 & S2 & S3) tid Ht. rewrite S1 in B1. rewrite S2 in B2. rewrite S3 in B3.
      assert (tid = 17 \/ tid = 18 \/ tid = 19) as [->|[->| ->]] by lia; (eapply perm_trans; [eassumption|now apply Permutation_sym]). }
    assert (same_lists (m_cat m) (m_cat (snd (mstep m (named (e_idt s) c)))) /\
      match m_cur m, m_cur (snd (mstep m (named (e_idt s) c))) with
      | None, None => True | Some (o, c1), Some (o', c2) => o' = o /\ same_lists c1 c2 | _, _ => False end) as [S1 S2].
    { assert (forall c1, same_lists c1 c1) as Hs by (intros; repeat split).
      assert (same_lists (m_cat m) (m_cat m) /\ match m_cur m with None => True | Some (o, c1) => o = o /\ same_lists c1 c1 end) as Hm
        by (split; [apply Hs|destruct (m_cur m) as [[? ?]|]; auto]).
      assert (forall f, (forall c1 c2 e1, f c1 = (NErr e1, c2) -> same_lists c1 c2) -> fst (alone m f) = NErr e' ->
        same_lists (m_cat m) (m_cat (snd (alone m f))) /\ match m_cur m, m_cur (snd (alone m f)) with
        | None, None => True | Some (o, c1), Some (o', c2) => o' = o /\ same_lists c1 c2 | _, _ => False end) as Q1.
      { intros f Hfl. unfold alone. destruct (m_cur m) as [[o c1]|] eqn:Ec; [discriminate|].
        destruct (f (m_cat m)) as [[| | | | | |] c2]; try discriminate. intros _. cbn [snd]. rewrite Ec. auto. }
      assert (forall k f, (forall c1 c2 e1, f c1 = (NErr e1, c2) -> same_lists c1 c2) -> fst (within m k f) = NErr e' ->
        same_lists (m_cat m) (m_cat (snd (within m k f))) /\ match m_cur m, m_cur (snd (within m k f)) with
        | None, None => True | Some (o, c1), Some (o', c2) => o' = o /\ same_lists c1 c2 | _, _ => False end) as Q2.
      { intros k f Hfl. unfold within. destruct (_ <? _)%nat; [|discriminate]. destruct (m_cur m) as [[[j|] c1]|] eqn:Ec; try discriminate.
        destruct (Nat.eqb_spec j k) as [->|]; [|discriminate]. destruct (f c1) as [n1 c2] eqn:Ef. cbn [fst snd m_cat m_cur]. intros ->.
        split; [apply Hs|]. split; [reflexivity|]. eauto. }
      assert (forall k f, fst (complete_with m k f) = NErr e' -> snd (complete_with m k f) = m) as Q3.
      { intros k f. unfold complete_with. destruct (_ <? _)%nat; [|discriminate]. destruct (m_cur m) as [[[j|] c1]|]; auto.
        destruct (j =? k)%nat; auto. discriminate. }
      destruct (named (e_idt s) c) as [d [|]|d b| | |k|k|k d s0|k d s0 b|k d|k d s0 n0|k d s0 n0 td|k|k|]; cbn [mstep] in Hf |- *;
        try (apply Q1; [|exact Hf]; intros c1 c2 e1; apply (failed_lists c1 d [] [] {| td_cols := []; td_types := []; td_key := [] |} b e1 c2));
        try (apply Q1; [|exact Hf]; intros c1 c2 e1; apply (failed_lists c1 d [] [] {| td_cols := []; td_types := []; td_key := [] |} false e1 c2));
        try (apply Q2; [|exact Hf]; intros c1 c2 e1; apply (failed_lists c1 d s0 n0 td false e1 c2));
        try (apply Q2; [|exact Hf]; intros c1 c2 e1; apply (failed_lists c1 d s0 n0 {| td_cols := []; td_types := []; td_key := [] |} false e1 c2));
        try (apply Q2; [|exact Hf]; intros c1 c2 e1; apply (failed_lists c1 d s0 [] {| td_cols := []; td_types := []; td_key := [] |} b e1 c2));
        try (apply Q2; [|exact Hf]; intros c1 c2 e1; apply (failed_lists c1 d s0 [] {| td_cols := []; td_types := []; td_key := [] |} false e1 c2));
        try (apply Q2; [|exact Hf]; intros c1 c2 e1; apply (failed_lists c1 d [] [] {| td_cols := []; td_types := []; td_key := [] |} false e1 c2));
        try (rewrite (Q3 _ _ Hf); clear -Hm; destruct (m_cur m) as [[? ?]|]; exact Hm).
      - clear -Hm. cbn [snd]. destruct (m_cur m) as [[? ?]|]; exact Hm.
      - apply Q1; [|exact Hf]. discriminate.
      - destruct (m_cur m); discriminate.
      - destruct (_ <? _)%nat; discriminate.
      - destruct (_ <? _)%nat; discriminate.
      - discriminate. }
    split; [intros tid Ht; eapply Hp; [exact (rp_committed _ _ Rm)|exact (rp_committed _ _ Rm')|exact S1|exact Ht]|].
    intros x t Hv. pose proof (er_call I n s c _ s' Hr Hk Es) as Hr'.
    destruct (represents_view I _ s' _ x t Hr' Rm' Hv) as (o & c2 & Hc2 & Hh2). rewrite Hc2 in S2.
    destruct (m_cur m) as [[o1 c1]|] eqn:Em; [|contradiction]. destruct S2 as [-> S2]. pose proof (rp_current _ _ Rm) as R3. rewrite Em in R3.
    destruct R3 as (y & t0 & Hv0 & Hh0 & _).
    exists y, t0. split; [exact Hv0|]. intros tid Ht. eapply Hp; eassumption.
  Qed.

  (** ** Opening what was created *)
  Lemma ordinary_ID t t' i : idt_ok t -> interns t t' -> ordinary t i -> ID t' (idString t i) true = (t', i).
  Proof.
    intros K Hi (Hk & Hres & Hn & Hlen). destruct (known_entry t i K Hk) as (m & Hm). destruct (interns_ok t t' Hi K) as [K' Hin].
    pose proof (idString_entry t m i K Hm) as Hs. rewrite Hs in *. destruct (ID t' (meaning_text m) true) as [t2 j] eqn:E2.
    destruct m as [w|nm]; cbn [meaning_text] in *.
    - exfalso. unfold entries in Hm. apply in_app_or in Hm as [Hm|Hm]; apply in_map_iff in Hm as ([s j2] & E0 & Hm); [discriminate|].
      injection E0 as -> ->. assert (In w (reserved_words ++ nonreserved_words)) as Hw by (apply keywords_words, in_map_iff; exists (w, i); auto).
      apply in_app_or in Hw as [Hw|Hw]; [|contradiction].
      apply (keywords_reserved w i Hm) in Hw. unfold IsReserved in Hres. apply Z.ltb_ge in Hres. lia.
    - pose proof (means_quoted nm) as M. destruct (ID_spec t' nm true t2 j _ K' M E2) as (K2 & K3 & K4 & K5).
      rewrite (firstn_all2 (n := 128) nm) in * by (unfold zlen in Hlen; lia). specialize (Hin _ _ Hm).
      assert (t2 = t') as -> by (apply K5, in_map_iff; exists (Name nm, i); auto). now rewrite (entries_id_unique t' _ j i K' K4 Hin).
  Qed.

  Lemma estep_interns I s c out s' : wok (e_w s) -> estep I s c = (out, s') -> interns (e_idt s) (e_idt s').
  Proof.
    intros K Es. assert (forall o out w', step (e_w s) o = (out, w') -> wok w' /\ interns (e_idt s) (sh_idt (w_sh w'))) as Hst.
    { intros o out0 w' E1. split; [eapply wok_step; [exact K|]; apply step_cases; eassumption|]. eapply run_later; [exact K|apply run_one; exact E1]. }
    assert (forall A (p : prog A) f out0 s0, inNew s p f = (out0, s0) -> interns (e_idt s) (e_idt s0)) as H1.
    { intros A p f out0 s0. unfold inNew. destruct (step _ _) as [o w1] eqn:E1. destruct (Hst _ _ _ E1) as [K1 I1].
      destruct o; try (intros [= _ <-]; constructor). destruct (exec w1 _ p) as [[r w2] lg] eqn:E2. intros [= _ <-].
      eapply interns_trans; [exact I1|]. eapply exec_idt; eassumption. }
    assert (forall A k (p : prog A) f out0 s0, inTx s k p f = (out0, s0) -> interns (e_idt s) (e_idt s0)) as H2.
    { intros A k p f out0 s0. unfold inTx. destruct (nth_error _ _) as [[x|]|]; try (intros [= _ <-]; constructor).
      destruct (exec _ x p) as [[r w2] lg] eqn:E2. intros [= _ <-]. eapply exec_idt; eassumption. }
    assert (forall k c out0 s0, completeTx s k c = (out0, s0) -> interns (e_idt s) (e_idt s0)) as H3.
    { intros k c0 out0 s0. unfold completeTx. destruct (nth_error _ _) as [[x|]|]; try (intros [= _ <-]; constructor).
      destruct (step _ _) as [o w1] eqn:E1. destruct (Hst _ _ _ E1) as [K1 I1]. destruct o; intros [= _ <-]; exact I1. }
    assert (forall k o out0 s0, stub s k o = (out0, s0) -> interns (e_idt s) (e_idt s0)) as H4.
    { intros k o out0 s0. unfold stub. destruct (nth_error _ _); intros [= _ <-]; constructor. }
    destruct c; cbn [estep] in Es; try (eapply H1; exact Es); try (eapply H2; exact Es); try (eapply H3; exact Es); try (eapply H4; exact Es).
    - destruct options; [eapply H1; exact Es|]. injection Es as _ <-. constructor.
    - destruct (step _ _) as [o w1] eqn:E1. destruct (Hst _ _ _ E1) as [K1 I1]. destruct o; injection Es as _ <-; try constructor. exact I1.
    - destruct (step (e_w s) (Intern s0 quoted)) as [o w1] eqn:E1. destruct (Hst _ _ _ E1) as [K1 I1]. injection Es as _ <-. exact I1.
  Qed.

  Lemma later_reach I ok n s s' : ereach I n s -> later I ok s s' -> exists n', ereach I n' s' /\ interns (e_idt s) (e_idt s').
  Proof.
    intros Hr. induction 1 as [|s1 c out s2 H (n' & R1 & I1) Hok Hk Es]; [exists n; split; [exact Hr|constructor]|].
    eexists. split; [eapply er_call; eassumption|]. eapply interns_trans; [exact I1|]. destruct (reach_state I n' s1 R1) as (h & Rn & _).
    eapply estep_interns; [exact (ran_wok _ _ Rn)|exact Es].
  Qed.

  Lemma table_eqb_refl a : table_eqb a a = true.
  Proof. now apply table_eqb_spec. Qed.
  Lemma find_other l a b e : find_table l a = Some e -> has table_eqb (map fst l) b = false -> find_table ((b, e) :: l) a = Some e.
  Proof.
    intros H Hb. unfold find_table in *. cbn [find fst]. destruct (table_eqb a b) eqn:Eab; [|exact H]. reflexivity.
  Qed.

  (** Tables stay. *)
  Definition has_table (a : bytes * bytes * bytes) (e : Z * tabledef) (c : catalogue) : Prop := find_table (c_tables c) a = Some e.
  Lemma create_stays a e d s n td c : has_table a e c -> has_table a e (snd (create_table d s n td c)).
  Proof.
    unfold has_table, create_table. intros H. destruct (negb _); [exact H|]. destruct (negb _); [exact H|]. destruct (negb _); [exact H|].
    destruct (has table_eqb _ _) eqn:Eh; [exact H|]. cbn [snd c_tables with_tables with_next].
    unfold find_table in *. cbn [find fst]. destruct (table_eqb a (d, s, n)) eqn:Eab; [|exact H]. exfalso.
    apply table_eqb_spec in Eab. subst a. destruct (find _ (c_tables c)) as [e2|] eqn:Ef; [|discriminate]. apply find_some in Ef as [F1 F2].
    apply table_eqb_spec in F2. assert (has table_eqb (map fst (c_tables c)) (d, s, n) = true); [|congruence].
    apply (has_In _ table_eqb_spec). rewrite F2. now apply in_map.
  Qed.
  Lemma tables_keep a e f : (forall c : catalogue, c_tables (snd (f c)) = c_tables c) -> forall c : catalogue, has_table a e c -> has_table a e (snd (f c : nout * catalogue)).
  Proof. intros H c. unfold has_table. now rewrite H. Qed.
  Lemma tables_same d s b c : c_tables (snd (create_database d c)) = c_tables c /\ c_tables (snd (drop_database d b c)) = c_tables c /\
    c_tables (snd (create_schema d s c)) = c_tables c /\ c_tables (snd (drop_schema d s b c)) = c_tables c.
  Proof.
    unfold create_database, drop_database, create_schema, drop_schema.
    repeat match goal with |- context [if ?x then _ else _] => destruct x end; auto.
  Qed.
  Lemma stays_everywhere a e m c : everywhere (has_table a e) m -> everywhere (has_table a e) (snd (mstep m c)).
  Proof.
    intros H. apply mstep_keeps; [| | | | |exact H]; intros.
    - eapply tables_keep; [|eassumption]. intros c1. apply (tables_same d [] false c1).
    - eapply tables_keep; [|eassumption]. intros c1. apply (tables_same d [] b c1).
    - eapply tables_keep; [|eassumption]. intros c1. apply (tables_same d s false c1).
    - eapply tables_keep; [|eassumption]. intros c1. apply (tables_same d s b c1).
    - now apply create_stays.
  Qed.

  Definition mine (k : nat) (P : catalogue -> Prop) (m : machine) : Prop := (k < m_count m)%nat /\ exists c, m_cur m = Some (Some k, c) /\ P c.
  Lemma mine_keeps a e k m c : c <> NCommit k -> c <> NRollback k -> mine k (has_table a e) m -> mine k (has_table a e) (snd (mstep m c)).
  Proof.
    intros N1 N2 (Hk & c0 & Hc & Hp). assert (mine k (has_table a e) m) as Hm by (split; [exact Hk|]; eauto).
    assert (forall f, snd (alone m f) = m) as Q1 by (intros f; unfold alone; now rewrite Hc).
    assert (forall j f, (forall c1, has_table a e c1 -> has_table a e (snd (f c1))) -> mine k (has_table a e) (snd (within m j f))) as Q2.
    { intros j f Hf. unfold within. destruct (_ <? _)%nat; [|exact Hm]. rewrite Hc. destruct (Nat.eqb_spec k j) as [<-|]; [|exact Hm].
      split; [exact Hk|]. cbn [snd m_cur]. eauto. }
    assert (forall j f, j <> k -> snd (complete_with m j f) = m) as Q3.
    { intros j f Hj. unfold complete_with. destruct (_ <? _)%nat; [|reflexivity]. rewrite Hc. destruct (Nat.eqb_spec k j) as [<-|]; [now destruct Hj|reflexivity]. }
    destruct c; cbn [mstep]; rewrite ?Q1; try exact Hm.
    - destruct options; [exact Hm|]. now rewrite Q1.
    - rewrite Hc. exact Hm.
    - rewrite Q3 by congruence. exact Hm.
    - rewrite Q3 by congruence. exact Hm.
    - apply Q2. apply tables_keep. intros c1. apply (tables_same d s false c1).
    - apply Q2. apply tables_keep. intros c1. apply (tables_same d s ifExists c1).
    - apply Q2. intros c1. unfold list_schemas. destruct (negb _); [auto|]. destruct (negb _); auto.
    - apply Q2. intros c1. unfold open_table. destruct (negb _); [auto|]. destruct (find_table _ _) as [[? ?]|]; auto.
    - apply Q2. intros c1. apply create_stays.
  Qed.
  Lemma mine_create d s n td k m c1 : mstep m (NCreateTable k d s n td) = (NDone, c1) ->
    fits d && fits s && fits n = true /\ exists id, mine k (has_table (d, s, n) (id, td)) c1.
  Proof.
    cbn [mstep]. unfold within. destruct (k <? m_count m)%nat eqn:Ek; [|discriminate]. destruct (m_cur m) as [[[j|] c]|] eqn:Ec; try discriminate.
    destruct (Nat.eqb_spec j k) as [->|]; [|discriminate]. unfold create_table. destruct (fits d && fits s) eqn:Ef; [|discriminate]. cbn [negb].
    destruct (negb (has _ _ _)); [discriminate|]. destruct (fits n) eqn:Efn; [|discriminate]. cbn [andb negb]. destruct (negb (def_fits td)); [discriminate|].
    destruct (has table_eqb _ _) eqn:Eh; [discriminate|]. cbn [fst snd]. intros [= <-]. split; [reflexivity|]. exists (c_next c).
    apply Nat.ltb_lt in Ek. split; [exact Ek|]. eexists. split; [reflexivity|]. unfold has_table, find_table. cbn [c_tables with_tables find fst].
    now rewrite table_eqb_refl.
  Qed.

  Lemma opened_type t t' cols cn types key id out : idt_ok t -> interns t t' -> Forall (ordinary t) cn ->
    agrees t' out (NTable id (def_of t cn types key)) ->
    cols = cn -> out = ETable (id mod 2 ^ 32) {| ett_version := 1; ett_cols := cols; ett_types := types; ett_key := key |}.
  Proof.
    intros K Hi Ho (cs & -> & H) ->. cbn [td_types td_key def_of td_cols] in *. do 2 f_equal.
    revert cs H. induction Ho as [|i l Hi1 Ho IH]; intros cs H; inversion H as [|? j ? cs' H1 H2]; subst; [reflexivity|]. f_equal; [|now apply IH].
    cbn [fst snd] in H1. destruct Hi1 as (Hk & Hres & Hn). rewrite Hres in H1. cbn [negb] in H1.
    rewrite (ordinary_ID t t' i K Hi (conj Hk (conj Hres Hn))) in H1. congruence.
  Qed.

  Definition on_tx (k : nat) (c : ecall) : Prop := c = ECommit k \/ c = ERollback k.

  Lemma named_names t t' tn : idt_ok t -> interns t t' -> known_id t (tn_database tn) -> known_id t (tn_schema tn) -> known_id t (tn_table tn) ->
    idString t' (tn_database tn) = idString t (tn_database tn) /\ idString t' (tn_schema tn) = idString t (tn_schema tn) /\
    idString t' (tn_table tn) = idString t (tn_table tn) /\ known_id t' (tn_database tn) /\ known_id t' (tn_schema tn) /\ known_id t' (tn_table tn).
  Proof.
    intros K Hi K1 K2 K3. destruct (name_stays t t' _ K Hi K1), (name_stays t t' _ K Hi K2), (name_stays t t' _ K Hi K3). auto 10.
  Qed.

  Lemma created_opens I n s k tn cn ct p s1 : ereach I n s -> known_call (e_idt s) (ECreateTable k tn cn ct p) ->
    Forall (ordinary (e_idt s)) cn -> estep I s (ECreateTable k tn cn ct p) = (EDone, s1) ->
    exists id, let tt := {| ett_version := 1; ett_cols := cn; ett_types := ct; ett_key := p |} in
      forall s2, later I (fun c => c <> ECommit k /\ c <> ERollback k) s1 s2 ->
        fst (estep I s2 (EOpenTable k tn)) = ETable id tt /\
        forall s3, estep I s2 (ECommit k) = (EDone, s3) -> forall s4, later I (fun _ => True) s3 s4 ->
        forall j, let out := fst (estep I s4 (EOpenTable j tn)) in
          out = ETable id tt \/
          out = ENoObject /\ nth_error (e_txs s4) j = None \/ out = EPanic /\ nth_error (e_txs s4) j = Some None.
  Proof.
    intros Hr Hk Ho Es. destruct (catalogue_reached HX HG HL HF HE I n s Hr) as (m & Rm & Mr).
    destruct (catalogue_lemma HX HG HL HF HE I n s m _ _ s1 Hr Rm Hk Es) as [Ha Rm1]. cbn [named] in Ha, Rm1.
    destruct (reach_state I n s Hr) as (h & Rn & K). pose proof (estep_interns I s _ _ s1 (ran_wok _ _ Rn) Es) as Hi1.
    pose proof (er_call I n s _ _ s1 Hr Hk Es) as Hr1. cbn in Hr1.
    set (t0 := e_idt s) in *. set (nm := (idString t0 (tn_database tn), idString t0 (tn_schema tn), idString t0 (tn_table tn))) in *.
    destruct Hk as (K1 & K2 & K3 & K4).
    destruct (mstep m _) as [o m1] eqn:Em. cbn [fst snd] in Ha, Rm1.
    assert (o = NDone) as ->.
    { destruct o; cbn in Ha; try discriminate; [reflexivity| |]; destruct Ha as (? & ? & _); discriminate. }
    destruct (mine_create _ _ _ _ _ _ _ Em) as (Hfit & id & Hm1). exists (id mod 2 ^ 32). intros tt s2 Hl.
    assert (exists n2 m2, ereach I n2 s2 /\ represents s2 m2 /\ mine k (has_table nm (id, def_of t0 cn ct p)) m2 /\ interns t0 (e_idt s2)) as (n2 & m2 & Hr2 & Rm2 & Hm2 & Hi2).
    { induction Hl as [|s2 c out s3 Hl IH [N1 N2] Hkc Es2]; [eexists _, m1; split; [exact Hr1|]; auto|].
      destruct IH as (n2 & m2 & Hr2 & Rm2 & Hm2 & Hi2).
      destruct (catalogue_lemma HX HG HL HF HE I n2 s2 m2 _ _ s3 Hr2 Rm2 Hkc Es2) as [_ Rm3].
      destruct (reach_state I n2 s2 Hr2) as (h2 & Rn2 & _).
      eexists _, _. split; [eapply er_call; eassumption|]. split; [exact Rm3|]. split; [|eapply interns_trans; [exact Hi2|]; eapply estep_interns; [exact (ran_wok _ _ Rn2)|exact Es2]].
      apply mine_keeps; [| |exact Hm2]; destruct c; cbn [named]; congruence. }
    split.
    - destruct (named_names t0 (e_idt s2) tn K Hi2 K1 K2 K3) as (E1 & E2 & E3 & Q1 & Q2 & Q3).
      destruct (estep I s2 (EOpenTable k tn)) as [out s3] eqn:Es2.
      destruct (catalogue_lemma HX HG HL HF HE I n2 s2 m2 (EOpenTable k tn) out s3 Hr2 Rm2 (conj Q1 (conj Q2 Q3)) Es2) as [Ha2 _]. cbn [named] in Ha2.
      rewrite E1, E2, E3 in Ha2. destruct Hm2 as (Hc2 & c2 & Hcur & Hht). cbn [mstep] in Ha2. unfold within in Ha2.
      rewrite (proj2 (Nat.ltb_lt _ _) Hc2), Hcur, Nat.eqb_refl in Ha2. cbn [fst] in Ha2. unfold open_table in Ha2. rewrite Hfit in Ha2. cbn [negb] in Ha2.
      unfold has_table, nm in Hht. rewrite Hht in Ha2. cbn [fst] in Ha2 |- *.
      destruct (reach_state I n2 s2 Hr2) as (h2 & Rn2 & _).
      eapply opened_type; [exact K| |exact Ho|exact Ha2|reflexivity]. eapply interns_trans; [exact Hi2|]. eapply estep_interns; [exact (ran_wok _ _ Rn2)|exact Es2].
    - intros s3 Ec s4 Hl4 j. destruct (catalogue_lemma HX HG HL HF HE I n2 s2 m2 (ECommit k) _ s3 Hr2 Rm2 Logic.I Ec) as [_ Rm3]. cbn [named] in Rm3.
      destruct (reach_state I n2 s2 Hr2) as (h2 & Rn2 & _). pose proof (estep_interns I s2 _ _ s3 (ran_wok _ _ Rn2) Ec) as Hi3.
      pose proof (er_call I n2 s2 (ECommit k) _ s3 Hr2 Logic.I Ec) as Hr3. cbn in Hr3.
      assert (everywhere (has_table nm (id, def_of t0 cn ct p)) (snd (mstep m2 (NCommit k)))) as He3.
      { destruct Hm2 as (Hc2 & c2 & Hcur & Hht). cbn [mstep]. unfold complete_with. rewrite (proj2 (Nat.ltb_lt _ _) Hc2), Hcur, Nat.eqb_refl.
        cbn [snd]. split; [exact Hht|]. intros ? ? [=]. }
      assert (exists n4 m4, ereach I n4 s4 /\ represents s4 m4 /\ everywhere (has_table nm (id, def_of t0 cn ct p)) m4 /\ interns t0 (e_idt s4)) as (n4 & m4 & Hr4 & Rm4 & He4 & Hi4).
      { clear j. induction Hl4 as [|s4 c out s5 Hl4 IH _ Hkc Es4].
        - eexists _, _. split; [exact Hr3|]. split; [exact Rm3|]. split; [exact He3|]. eapply interns_trans; eassumption.
        - destruct IH as (n4 & m4 & Hr4 & Rm4 & He4 & Hi4).
          destruct (catalogue_lemma HX HG HL HF HE I n4 s4 m4 _ _ s5 Hr4 Rm4 Hkc Es4) as [_ Rm5].
          destruct (reach_state I n4 s4 Hr4) as (h4 & Rn4 & _).
          eexists _, _. split; [eapply er_call; eassumption|]. split; [exact Rm5|].
          split; [|eapply interns_trans; [exact Hi4|]; eapply estep_interns; [exact (ran_wok _ _ Rn4)|exact Es4]]. now apply stays_everywhere. }
      destruct (named_names t0 (e_idt s4) tn K Hi4 K1 K2 K3) as (E1 & E2 & E3 & Q1 & Q2 & Q3).
      destruct (nth_error (e_txs s4) j) as [[x|]|] eqn:Ej.
      + left. destruct (estep I s4 (EOpenTable j tn)) as [out s5] eqn:Es4.
        destruct (catalogue_lemma HX HG HL HF HE I n4 s4 m4 (EOpenTable j tn) out s5 Hr4 Rm4 (conj Q1 (conj Q2 Q3)) Es4) as [Ha4 _]. cbn [named] in Ha4.
        rewrite E1, E2, E3 in Ha4. cbn [mstep] in Ha4. unfold within in Ha4.
        assert ((j <? m_count m4)%nat = true) as Hj by (apply Nat.ltb_lt; rewrite <- (rp_count _ _ Rm4); apply nth_error_Some; congruence).
        rewrite Hj in Ha4. pose proof (rp_current _ _ Rm4) as R4. destruct (m_cur m4) as [[o4 c4]|] eqn:Em4; [|destruct R4 as [_ R4]; now destruct (R4 j x)].
        destruct R4 as (y & t4 & _ & _ & R4). apply R4 in Ej. destruct Ej as [-> ->]. rewrite Nat.eqb_refl in Ha4. cbn [fst] in Ha4.
        unfold open_table in Ha4. rewrite Hfit in Ha4. cbn [negb] in Ha4. pose proof (proj2 He4 _ _ Em4) as Hht. unfold has_table, nm in Hht. rewrite Hht in Ha4.
        cbn [fst] in Ha4 |- *. destruct (reach_state I n4 s4 Hr4) as (h4 & Rn4 & _).
        eapply opened_type; [exact K| |exact Ho|exact Ha4|reflexivity]. eapply interns_trans; [exact Hi4|]. eapply estep_interns; [exact (ran_wok _ _ Rn4)|exact Es4].
      + right. right. cbn [estep]. unfold inTx. rewrite Ej. auto.
      + right. left. cbn [estep]. unfold inTx. rewrite Ej. auto.
  Qed.

  (** ** Dropping *)
  Lemma perm_of {A B} (f : A -> B) l r1 r2 : Permutation r1 (map f l) -> Permutation r2 (map f l) -> Permutation r2 r1.
  Proof. intros H1 H2. eapply perm_trans; [exact H2|now apply Permutation_sym]. Qed.

  Lemma drop_database_lemma I n s d b s' : ereach I n s -> known_id (e_idt s) d -> estep I s (EDropDatabase d b) = (EDone, s') ->
    ~ In [VString (idString (e_idt s) d)] (rows_in (committed (e_w s')) 17) /\
    Permutation (rows_in (committed (e_w s')) 18) (rows_in (committed (e_w s)) 18) /\
    Permutation (rows_in (committed (e_w s')) 19) (rows_in (committed (e_w s)) 19).
  Proof.
    intros Hr Hk Es. destruct (catalogue_reached HX HG HL HF HE I n s Hr) as (m & Rm & Mr).
    destruct (catalogue_lemma HX HG HL HF HE I n s m (EDropDatabase d b) _ s' Hr Rm Hk Es) as [Ha Rm']. cbn [named mstep] in Ha, Rm'. unfold alone in Ha, Rm'.
    destruct (m_cur m) as [[o c]|]; [discriminate|]. pose proof (rp_committed _ _ Rm) as [_ _ A1 A2 A3].
    unfold drop_database in Ha, Rm'. destruct (negb _); [discriminate|]. destruct (has bytes_eqb _ _) eqn:Eh; cbn [fst snd] in Ha, Rm'.
    - pose proof (rp_committed _ _ Rm') as [_ _ B1 B2 B3]. cbn [m_cat with_databases c_databases c_schemas c_tables] in B1, B2, B3.
      split; [|split; eapply perm_of; eassumption]. intros Hin. apply (Permutation_in _ B1) in Hin. apply in_map_iff in Hin as (d' & [= Hd] & Hin).
      apply filter_In in Hin as [_ Hin]. rewrite Hd, bytes_eqb_refl in Hin. discriminate.
    - destruct b; [|discriminate]. pose proof (rp_committed _ _ Rm') as [_ _ B1 B2 B3]. cbn [m_cat] in B1, B2, B3.
      split; [|split; eapply perm_of; eassumption]. intros Hin. apply (Permutation_in _ B1) in Hin. apply in_map_iff in Hin as (d' & [= Hd] & Hin).
      rewrite Hd in Hin. apply not_true_iff_false in Eh. apply Eh. apply (has_In _ bytes_eqb_spec). exact Hin.
  Qed.

  Lemma drop_schema_lemma I n s k d sn b s' : ereach I n s -> known_id (e_idt s) d -> known_id (e_idt s) sn ->
    estep I s (EDropSchema k d sn b) = (EDone, s') ->
    exists x y t t', view (e_w s) x = Some t /\ view (e_w s') y = Some t' /\
      ~ In [VString (idString (e_idt s) d); VString (idString (e_idt s) sn)] (rows_in t' 18) /\
      Permutation (rows_in t' 19) (rows_in t 19).
  Proof.
    intros Hr Hk Hk2 Es. destruct (catalogue_reached HX HG HL HF HE I n s Hr) as (m & Rm & Mr).
    destruct (catalogue_lemma HX HG HL HF HE I n s m (EDropSchema k d sn b) _ s' Hr Rm (conj Hk Hk2) Es) as [Ha Rm']. cbn [named mstep] in Ha, Rm'. unfold within in Ha, Rm'.
    destruct (_ <? _)%nat; [|discriminate]. pose proof (rp_current _ _ Rm) as R3. destruct (m_cur m) as [[[j|] c]|]; try discriminate.
    destruct (j =? k)%nat; [|discriminate]. cbn [fst snd] in Ha, Rm'. destruct R3 as (x & t & Hv & [_ _ A1 A2 A3] & _).
    pose proof (rp_current _ _ Rm') as R4. cbn [m_cur] in R4. destruct R4 as (y & t' & Hv' & [_ _ B1 B2 B3] & _).
    exists x, y, t, t'. split; [exact Hv|]. split; [exact Hv'|]. unfold drop_schema in *. destruct (negb _); [discriminate|].
    destruct (has schema_eqb _ _) eqn:Eh; cbn [fst snd with_schemas c_databases c_schemas c_tables] in *.
    - split; [|eapply perm_of; eassumption]. intros Hin. apply (Permutation_in _ B2) in Hin. apply in_map_iff in Hin as ([d1 s1] & [= Hd Hs] & Hin).
      apply filter_In in Hin as [_ Hin]. rewrite Hd, Hs, (proj2 (schema_eqb_spec _ _) eq_refl) in Hin. discriminate.
    - destruct b; [|discriminate]. cbn [snd] in *. split; [|eapply perm_of; eassumption]. intros Hin. apply (Permutation_in _ B2) in Hin.
      apply in_map_iff in Hin as ([d1 s1] & [= Hd Hs] & Hin). rewrite Hd, Hs in Hin. apply not_true_iff_false in Eh. apply Eh. apply (has_In _ schema_eqb_spec). exact Hin.
  Qed.

  Lemma drop_table_lemma I s k tn s' : estep I s (EDropTable k tn) = (EDone, s') -> s' = s.
  Proof. cbn [estep]. unfold stub. destruct (nth_error _ _); congruence. Qed.

  (** ** Numbers of 32 bits *)
  (** The same CreateTable over and over uses up numbers. *)
  Lemma again_creates I tn cn ct p : forall j n s m k c id e,
    ereach I n s -> represents s m -> known_call (e_idt s) (ECreateTable k tn cn ct p) ->
    (k < m_count m)%nat -> m_cur m = Some (Some k, c) -> c_next c = id -> 512 <= id -> id + Z.of_nat j < 2 ^ 63 ->
    has schema_eqb (c_schemas c) (idString (e_idt s) (tn_database tn), idString (e_idt s) (tn_schema tn)) = true ->
    fits (idString (e_idt s) (tn_database tn)) && fits (idString (e_idt s) (tn_schema tn)) = true ->
    fits (idString (e_idt s) (tn_table tn)) && def_fits (def_of (e_idt s) cn ct p) = true ->
    has_table (idString (e_idt s) (tn_database tn), idString (e_idt s) (tn_schema tn), idString (e_idt s) (tn_table tn)) e c ->
    exists s' m' c', ereach I (n + j) s' /\ represents s' m' /\ interns (e_idt s) (e_idt s') /\ m_count m' = m_count m /\
      m_cur m' = Some (Some k, c') /\ c_next c' = id + Z.of_nat j /\ c_schemas c' = c_schemas c /\ c_tables c' = c_tables c.
  Proof.
    induction j as [|j IH]; intros n s m k c id e Hr Rm Hk Hkc Hc Hid Hlo Hlt Hs Hf1 Hf2 Ht.
    - exists s, m, c. rewrite Nat.add_0_r, Z.add_0_r. split; [exact Hr|]. split; [exact Rm|]. split; [constructor|]. auto.
    - destruct (reach_state I n s Hr) as (h & Rn & K).
      destruct (estep I s (ECreateTable k tn cn ct p)) as [out s1] eqn:Es.
      destruct (catalogue_lemma HX HG HL HF HE I n s m _ _ s1 Hr Rm Hk Es) as [_ Rm1]. cbn [named] in Rm1.
      pose proof (er_call I n s _ _ s1 Hr Hk Es) as Hr1. cbn in Hr1.
      pose proof (estep_interns I s _ _ s1 (ran_wok _ _ Rn) Es) as Hi1.
      destruct Hk as (K1 & K2 & K3 & K4).
      destruct (named_names _ _ tn K Hi1 K1 K2 K3) as (E1 & E2 & E3 & Q1 & Q2 & Q3).
      assert (def_of (e_idt s1) cn ct p = def_of (e_idt s) cn ct p /\ Forall (known_id (e_idt s1)) cn) as [Ed K4'].
      { clear -K4 K Hi1 L. unfold def_of. induction K4 as [|i l H1 H2 IH]; [auto|]. destruct IH as [E1 F1]. injection E1 as E1.
        destruct (name_stays _ _ i K Hi1 H1) as [Es Ks]. cbn [map]. rewrite E1, Es. auto. }
      cbn [mstep] in Rm1. unfold within in Rm1. rewrite (proj2 (Nat.ltb_lt _ _) Hkc), Hc, Nat.eqb_refl in Rm1. cbn [snd] in Rm1.
      unfold create_table in Rm1. rewrite Hf1, Hs, Hf2 in Rm1. cbn [negb] in Rm1.
      assert (has table_eqb (map fst (c_tables c)) (idString (e_idt s) (tn_database tn), idString (e_idt s) (tn_schema tn), idString (e_idt s) (tn_table tn)) = true) as Hh.
      { apply (has_In _ table_eqb_spec). unfold has_table, find_table in Ht. destruct (find _ (c_tables c)) as [e2|] eqn:Ef; [|discriminate].
        apply find_some in Ef as [F1 F2]. apply table_eqb_spec in F2. rewrite F2. now apply in_map. }
      rewrite Hh in Rm1. cbn [snd] in Rm1.
      assert (i64 (c_next c + 1) = id + 1) as Ei by (rewrite Hid; apply i64_small; unfold is_i64; lia). rewrite Ei in Rm1.
      set (m1 := {| m_cat := m_cat m; m_cur := Some (Some k, with_next c (id + 1)); m_count := m_count m |}) in *.
      destruct (IH (S n) s1 m1 k (with_next c (id + 1)) (id + 1) e Hr1 Rm1) as (s' & m' & c' & R1 & R2 & R3 & R4 & R5 & R6 & R7 & R8);
        rewrite ?E1, ?E2, ?E3, ?Ed; auto; try lia.
      { split; [exact Q1|]. auto. }
      exists s', m', c'. split; [replace (n + S j)%nat with (S n + j)%nat by lia; exact R1|]. split; [exact R2|]. split; [eapply interns_trans; eassumption|].
      split; [exact R4|]. split; [exact R5|]. split; [lia|]. auto.
  Qed.

  Lemma ids32_lemma I s tn1 tn2 : booted I s ->
    let t := e_idt s in
    let c1 := ECreateTable 0 tn1 [] [] [] in let c2 := ECreateTable 0 tn2 [] [] [] in
    known_call t c1 -> known_call t c2 -> tn_database tn1 = tn_database tn2 -> tn_schema tn1 = tn_schema tn2 ->
    idString t (tn_database tn1) = str "maho" -> idString t (tn_schema tn1) = str "public" ->
    idString t (tn_table tn1) <> idString t (tn_table tn2) ->
    fits (idString t (tn_table tn1)) = true -> fits (idString t (tn_table tn2)) = true ->
    def_fits {| td_cols := []; td_types := []; td_key := [] |} = true ->
    exists n s' id tt1 tt2, ereach I n s' /\ Z.of_nat n = 2 ^ 32 + 1 /\
      fst (estep I s' (EOpenTable 0 tn1)) = ETable id tt1 /\ fst (estep I s' (EOpenTable 0 tn2)) = ETable id tt2.
  Proof.
    intros Hb t c1 c2 Hk1 Hk2 Hd Hs Nd Ns Nt F1 F2 Fd. pose proof (er_booted I s Hb) as Hr.
    destruct (booted_inv HX HG HL HF I s Hb) as (_ & _ & _ & _ & _ & _ & Rm).
    destruct (reach_state I 0 s Hr) as (h & Rn & K).
    (* the transaction *)
    destruct (estep I s EBegin) as [o1 s1] eqn:E1.
    destruct (catalogue_lemma HX HG HL HF HE I 0 s first_machine EBegin o1 s1 Hr Rm Logic.I E1) as [_ Rm1]. cbn [named mstep first_machine m_cur snd m_cat m_count] in Rm1.
    pose proof (er_call I 0 s EBegin o1 s1 Hr Logic.I E1) as Hr1. cbn in Hr1.
    pose proof (estep_interns I s _ _ s1 (ran_wok _ _ Rn) E1) as Hi1. destruct (reach_state I 0 s1 Hr1) as (h1 & Rn1 & K1).
    destruct Hk1 as (A1 & A2 & A3 & _). destruct Hk2 as (_ & _ & B3 & _).
    assert (forall t', interns t t' -> idString t' (tn_database tn1) = str "maho" /\ idString t' (tn_schema tn1) = str "public" /\
      idString t' (tn_table tn1) = idString t (tn_table tn1) /\ idString t' (tn_table tn2) = idString t (tn_table tn2) /\
      known_call t' c1 /\ known_call t' c2) as Names.
    { intros t' Hi. destruct (name_stays t t' _ K Hi A1) as [-> ?], (name_stays t t' _ K Hi A2) as [-> ?], (name_stays t t' _ K Hi A3) as [-> ?],
        (name_stays t t' _ K Hi B3) as [-> ?]. cbn. rewrite <- Hd, <- Hs. auto 12. }
    (* the first table *)
    destruct (Names _ Hi1) as (D1 & S1 & T1 & U1 & Kc1 & Kc2).
    destruct (estep I s1 c1) as [o2 s2] eqn:E2.
    destruct (catalogue_lemma HX HG HL HF HE I 0 s1 _ c1 o2 s2 Hr1 Rm1 Kc1 E2) as [_ Rm2]. cbn [named mstep c1] in Rm2. unfold within in Rm2.
    cbn [Nat.ltb Nat.leb m_count m_cur Nat.eqb snd m_cat] in Rm2. unfold create_table in Rm2. rewrite D1, S1, T1, F1 in Rm2.
    change (def_of _ [] [] []) with {| td_cols := []; td_types := []; td_key := [] |} in Rm2. rewrite Fd in Rm2.
    change (fits (str "maho") && fits (str "public")) with true in Rm2.
    change (has schema_eqb (c_schemas first_catalogue) (str "maho", str "public")) with true in Rm2. cbn [negb andb] in Rm2.
    assert (forall nm, has table_eqb (map fst (c_tables first_catalogue)) (str "maho", str "public", nm) = false) as Hno by (intros nm; reflexivity).
    rewrite Hno in Rm2. cbn [snd with_next c_next first_catalogue] in Rm2.
    pose proof (er_call I 0 s1 c1 o2 s2 Hr1 Kc1 E2) as Hr2. cbn in Hr2.
    pose proof (estep_interns I s1 _ _ s2 (ran_wok _ _ Rn1) E2) as Hi2'. pose proof (interns_trans _ _ _ Hi1 Hi2') as Hi2.
    destruct (Names _ Hi2) as (D2 & S2 & T2 & U2 & Kd1 & Kd2).
    change (i64 (512 + 1)) with 513 in Rm2.
    (* failing over and over *)
    assert (exists J, Z.of_nat J = 2 ^ 32 - 1) as (J & HJ) by (exists (Z.to_nat (2 ^ 32 - 1)); apply Z2Nat.id; clear; lia).
    match type of Rm2 with represents _ {| m_cat := _; m_cur := Some (_, ?c); m_count := _ |} => set (c2' := c) in * end.
    destruct (again_creates I tn1 [] [] [] J 1 s2 _ 0 c2' 513 (512, {| td_cols := []; td_types := []; td_key := [] |}) Hr2 Rm2 Kd1)
      as (s3 & m3 & c3 & R1 & R2 & R3 & R4 & R5 & R6 & R7 & R8); try reflexivity; rewrite ?D2, ?S2, ?T2, ?F1; try reflexivity; try lia.
    { cbn [m_count]. lia. }
    { change (def_of _ [] [] []) with {| td_cols := []; td_types := []; td_key := [] |}. rewrite Fd. reflexivity. }
    { unfold has_table, find_table, c2'. cbn [c_tables with_tables find fst]. now rewrite table_eqb_refl. }
    rewrite HJ in R6.
    (* the second table *)
    pose proof (interns_trans _ _ _ Hi2 R3) as Hi3. destruct (Names _ Hi3) as (D3 & S3 & T3 & U3 & Ke1 & Ke2). destruct (reach_state I _ s3 R1) as (h3 & Rn3 & K3).
    destruct (estep I s3 c2) as [o4 s4] eqn:E4.
    destruct (catalogue_lemma HX HG HL HF HE I _ s3 m3 c2 o4 s4 R1 R2 Ke2 E4) as [_ Rm4]. cbn [named mstep c2] in Rm4. unfold within in Rm4.
    rewrite R4, R5 in Rm4. cbn [Nat.ltb Nat.leb m_count Nat.eqb snd] in Rm4. unfold create_table in Rm4. rewrite <- Hd, <- Hs, D3, S3, U3, F2, R7 in Rm4.
    change (def_of _ [] [] []) with {| td_cols := []; td_types := []; td_key := [] |} in Rm4. rewrite Fd in Rm4.
    change (fits (str "maho") && fits (str "public")) with true in Rm4.
    change (has schema_eqb (c_schemas c2') (str "maho", str "public")) with true in Rm4. cbn [negb andb] in Rm4.
    assert (has table_eqb (map fst (c_tables c3)) (str "maho", str "public", idString t (tn_table tn2)) = false) as Hno2.
    { rewrite R8. unfold c2'. cbn [c_tables with_tables map fst has existsb]. unfold has in Hno. cbn [existsb].
      destruct (table_eqb _ _) eqn:Et; [|apply Hno]. apply table_eqb_spec in Et. injection Et as Et. congruence. }
    rewrite Hno2 in Rm4. cbn [snd] in Rm4. rewrite R6 in Rm4.
    pose proof (er_call I _ s3 c2 o4 s4 R1 Ke2 E4) as Hr4. cbn [c2] in Hr4. pose proof (estep_interns I s3 _ _ s4 (ran_wok _ _ Rn3) E4) as Hi4'.
    pose proof (interns_trans _ _ _ Hi3 Hi4') as Hi4. destruct (Names _ Hi4) as (D4 & S4 & T4 & U4 & Kf1 & Kf2).
    (* both open *)
    assert (forall tn nm id, tn_database tn = tn_database tn1 -> tn_schema tn = tn_schema tn1 -> idString (e_idt s4) (tn_table tn) = nm -> known_id (e_idt s4) (tn_table tn) -> fits nm = true ->
      has_table (str "maho", str "public", nm) (id, {| td_cols := []; td_types := []; td_key := [] |})
        (with_tables (with_next c3 (i64 (513 + (2 ^ 32 - 1) + 1))) ((str "maho", str "public", idString t (tn_table tn2), (513 + (2 ^ 32 - 1), {| td_cols := []; td_types := []; td_key := [] |})) :: c_tables c3)) ->
      exists tt, fst (estep I s4 (EOpenTable 0 tn)) = ETable (id mod 2 ^ 32) tt) as Open.
    { intros tn nm id Ed Esn Enm Kn Fn Hht. destruct (estep I s4 (EOpenTable 0 tn)) as [o5 s5] eqn:E5.
      destruct (catalogue_lemma HX HG HL HF HE I _ s4 _ (EOpenTable 0 tn) o5 s5 Hr4 Rm4) as [Ha5 _]; [cbn; rewrite Ed, Esn; destruct Kf1 as (? & ? & _); auto|exact E5|].
      cbn [named mstep] in Ha5. unfold within in Ha5. cbn [Nat.ltb Nat.leb m_count m_cur Nat.eqb fst] in Ha5. unfold open_table in Ha5.
      rewrite Ed, Esn, D4, S4, Enm, Fn in Ha5. change (fits (str "maho") && fits (str "public") && true) with true in Ha5. cbn [negb] in Ha5.
      unfold has_table in Hht. rewrite Hht in Ha5. destruct Ha5 as (cols & -> & _). eexists. reflexivity. }
    destruct (Open tn1 (idString t (tn_table tn1)) 512) as (tt1 & O1); auto; [destruct Kf1 as (_ & _ & ? & _); auto| |].
    { unfold has_table, find_table. cbn [c_tables with_tables find fst]. destruct (table_eqb _ (_, idString t (tn_table tn2))) eqn:Et;
        [apply table_eqb_spec in Et; injection Et as Et; congruence|]. rewrite R8. unfold c2'. cbn [c_tables with_tables find fst]. now rewrite table_eqb_refl. }
    destruct (Open tn2 (idString t (tn_table tn2)) (513 + (2 ^ 32 - 1))) as (tt2 & O2); auto; [destruct Kf2 as (_ & _ & ? & _); auto| |].
    { unfold has_table, find_table. cbn [c_tables with_tables find fst]. now rewrite table_eqb_refl. }
    exists (S (1 + J)), s4, 512, tt1, tt2. split; [exact Hr4|]. split; [|split; [exact O1|exact O2]].
    rewrite Nat2Z.inj_succ, Nat2Z.inj_add, HJ. clear. lia.
  Qed.
End ReachM.

(** ** With all that is assumed of the libraries *)
Lemma catalogue_start_all : forall X G L F E, libraries X G L F E ->
  forall I s, booted I s -> represents s first_machine.
Proof. intros X G L F E (HX & HG & HL & HF & HE) I s H. destruct (booted_inv HX HG HL HF I s H) as (? & ? & ? & ? & ? & ? & K). exact K. Qed.
Lemma catalogue_call_all : forall X G L F E, libraries X G L F E ->
  forall I n s m c out s', ereach I n s -> represents s m -> known_call (e_idt s) c -> estep I s c = (out, s') ->
  agrees (e_idt s') out (fst (mstep m (named (e_idt s) c))) /\ represents s' (snd (mstep m (named (e_idt s) c))).
Proof. intros X G L F E (HX & HG & HL & HF & HE). exact (catalogue_lemma HX HG HL HF HE). Qed.
Lemma catalogue_reached_all : forall X G L F E, libraries X G L F E ->
  forall I n s, ereach I n s -> exists m, represents s m /\ mreach n m.
Proof. intros X G L F E (HX & HG & HL & HF & HE). exact (catalogue_reached HX HG HL HF HE). Qed.
Lemma names_unique_all : forall X G L F E, libraries X G L F E ->
  forall I n s t, ereach I n s -> t = committed (e_w s) \/ (exists x, view (e_w s) x = Some t) ->
  NoDup (rows_in t 17) /\ NoDup (rows_in t 18) /\ NoDup (map (firstn 3) (rows_in t 19)).
Proof. intros X G L F E (HX & HG & HL & HF & HE). exact (unique_lemma HX HG HL HF HE). Qed.
Lemma error_changes_nothing_all : forall X G L F E, libraries X G L F E ->
  forall I n s c e s', ereach I n s -> known_call (e_idt s) c -> estep I s c = (EErr e, s') ->
  (forall tid, 17 <= tid <= 19 -> Permutation (rows_in (committed (e_w s')) tid) (rows_in (committed (e_w s)) tid)) /\
  (forall x t, view (e_w s') x = Some t -> exists y t0, view (e_w s) y = Some t0 /\
     forall tid, 17 <= tid <= 19 -> Permutation (rows_in t tid) (rows_in t0 tid)).
Proof. intros X G L F E (HX & HG & HL & HF & HE). exact (failed_lemma HX HG HL HF HE). Qed.
Lemma created_opens_all : forall X G L F E, libraries X G L F E ->
  forall I n s k tn cn ct p s1, ereach I n s -> known_call (e_idt s) (ECreateTable k tn cn ct p) ->
  Forall (ordinary (e_idt s)) cn -> estep I s (ECreateTable k tn cn ct p) = (EDone, s1) ->
  exists id, let tt := {| ett_version := 1; ett_cols := cn; ett_types := ct; ett_key := p |} in
    forall s2, later I (fun c => c <> ECommit k /\ c <> ERollback k) s1 s2 ->
      fst (estep I s2 (EOpenTable k tn)) = ETable id tt /\
      forall s3, estep I s2 (ECommit k) = (EDone, s3) -> forall s4, later I (fun _ => True) s3 s4 ->
      forall j, let out := fst (estep I s4 (EOpenTable j tn)) in
        out = ETable id tt \/
        out = ENoObject /\ nth_error (e_txs s4) j = None \/ out = EPanic /\ nth_error (e_txs s4) j = Some None.
Proof. intros X G L F E (HX & HG & HL & HF & HE). exact (created_opens HX HG HL HF HE). Qed.
Lemma init_succeeds_all : forall X G L F E, libraries X G L F E ->
  forall (U : RuneLib) t ths, RuneLib_ascii U -> idreach (t, ths) ->
  exists I w lg, exec (newStore t) 0 makeInfos = (Ok I, w, lg) /\
    forall ids, Forall is_intern ids ->
      (fst (Init I {| e_w := snd (run w ids); e_next := 0; e_txs := [] |}) = EDone <->
       Forall (fun e => def_fits (snd (snd e)) = true) (c_tables first_catalogue)).
Proof. intros X G L F E (HX & HG & HL & HF & HE) U t ths HU Hr. destruct (infos_succeed U t ths HU Hr) as (I & w & lg & Ex).
  exists I, w, lg. split; [exact Ex|]. intros ids Hi. exact (init_succeeds HX HG HL HF U I t ths w lg ids HU Hr Ex Hi). Qed.
Lemma table_ids_all : forall X G L F E, libraries X G L F E ->
  forall I n s, ereach I n s -> 512 + Z.of_nat n < 2 ^ 63 ->
  numbered n (committed (e_w s)) /\ forall x t, view (e_w s) x = Some t -> numbered n t.
Proof. intros X G L F E (HX & HG & HL & HF & HE). exact (numbered_lemma HX HG HL HF HE). Qed.
Lemma storage_ids_refuted_all : forall X G L F E, libraries X G L F E ->
  forall I s tn1 tn2, booted I s ->
  let t := e_idt s in
  let c1 := ECreateTable 0 tn1 [] [] [] in let c2 := ECreateTable 0 tn2 [] [] [] in
  known_call t c1 -> known_call t c2 -> tn_database tn1 = tn_database tn2 -> tn_schema tn1 = tn_schema tn2 ->
  idString t (tn_database tn1) = str "maho" -> idString t (tn_schema tn1) = str "public" ->
  idString t (tn_table tn1) <> idString t (tn_table tn2) ->
  fits (idString t (tn_table tn1)) = true -> fits (idString t (tn_table tn2)) = true ->
  def_fits {| td_cols := []; td_types := []; td_key := [] |} = true ->
  exists n s' id tt1 tt2, ereach I n s' /\ Z.of_nat n = 2 ^ 32 + 1 /\
    fst (estep I s' (EOpenTable 0 tn1)) = ETable id tt1 /\ fst (estep I s' (EOpenTable 0 tn2)) = ETable id tt2.
Proof. intros X G L F E (HX & HG & HL & HF & HE). exact (ids32_lemma HX HG HL HF HE). Qed.
Lemma drop_database_refuted_all : forall X G L F E, libraries X G L F E ->
  forall I n s d b s', ereach I n s -> known_id (e_idt s) d -> estep I s (EDropDatabase d b) = (EDone, s') ->
  ~ In [VString (idString (e_idt s) d)] (rows_in (committed (e_w s')) 17) /\
  Permutation (rows_in (committed (e_w s')) 18) (rows_in (committed (e_w s)) 18) /\
  Permutation (rows_in (committed (e_w s')) 19) (rows_in (committed (e_w s)) 19).
Proof. intros X G L F E (HX & HG & HL & HF & HE). exact (drop_database_lemma HX HG HL HF HE). Qed.
Lemma drop_schema_refuted_all : forall X G L F E, libraries X G L F E ->
  forall I n s k d sn b s', ereach I n s -> known_id (e_idt s) d -> known_id (e_idt s) sn ->
  estep I s (EDropSchema k d sn b) = (EDone, s') ->
  exists x y t t', view (e_w s) x = Some t /\ view (e_w s') y = Some t' /\
    ~ In [VString (idString (e_idt s) d); VString (idString (e_idt s) sn)] (rows_in t' 18) /\
    Permutation (rows_in t' 19) (rows_in t 19).
Proof. intros X G L F E (HX & HG & HL & HF & HE). exact (drop_schema_lemma HX HG HL HF HE). Qed.

Lemma constants_named :
  map (idString idt_init) [ID_SYSTEM; ID_INFO; ID_SEQUENCES; ID_DATABASES; ID_SCHEMAS; ID_TABLES; ID_MAHO; ID_PUBLIC] =
  map str ["system"; "info"; "sequences"; "databases"; "schemas"; "tables"; "maho"; "public"]%string.
Proof. vm_compute. reflexivity. Qed.
