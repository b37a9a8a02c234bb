(** What the methods of the engine do to the catalogue. *)

From Verif Require Import ModelEngine SpecEngine LemmasBase LemmasKey LemmasValue LemmasIdent LemmasTree LemmasStore LemmasWorld
  LemmasHistory LemmasSerial LemmasTable LemmasContents LemmasTableFacts LemmasTableCalls LemmasTableTypes LemmasRows LemmasTyped
  LemmasExec LemmasSelect LemmasTypedTable LemmasCatalogue LemmasSystemTables.

Lemma same_string a b : same_key_value (VString a) (VString b) <-> bytes_eqb a b = true.
Proof.
  rewrite bytes_eqb_eq. split; [intros [[= ->]|(p & q & [=] & _)]; reflexivity|intros ->; now left].
Qed.

Lemma same_key1 a r : same_key kc1 [VString a] (VString r :: []) <-> bytes_eqb a r = true.
Proof.
  rewrite <- same_string. split; [intros H; exact (H _ _ (or_introl eq_refl))|]. intros H c d [[= <- <-]|[]]. exact H.
Qed.
Lemma same_key2 a b r s : same_key kc2 [VString a; VString b] [VString r; VString s] <-> schema_eqb (a, b) (r, s) = true.
Proof.
  unfold schema_eqb. cbn [fst snd]. rewrite andb_true_iff, <- !same_string. split.
  - intros H. split; [exact (H _ _ (or_introl eq_refl))|exact (H _ _ (or_intror (or_introl eq_refl)))].
  - intros [H1 H2] c d [[= <- <-]|[[= <- <-]|[]]]; assumption.
Qed.
Lemma same_key3 a b e l r s u l' :
  same_key kc3 (VString a :: VString b :: VString e :: l) (VString r :: VString s :: VString u :: l') <-> table_eqb (a, b, e) (r, s, u) = true.
Proof.
  unfold table_eqb, schema_eqb. cbn [fst snd]. rewrite !andb_true_iff, <- !same_string. split.
  - intros H. split; [split|]; [exact (H _ _ (or_introl eq_refl))|exact (H _ _ (or_intror (or_introl eq_refl)))|
      exact (H _ _ (or_intror (or_intror (or_introl eq_refl))))].
  - intros [[H1 H2] H3] c d [[= <- <-]|[[= <- <-]|[[= <- <-]|[]]]]; assumption.
Qed.

Lemma fits_ltb n : (128 <? zlen n) = negb (fits n).
Proof. unfold fits. rewrite Z.leb_antisym. now rewrite negb_involutive. Qed.

Definition table_row {E : EGobLib} (e : (bytes * bytes * bytes) * (Z * tabledef)) : row :=
  let '((d, s, n), (id, td)) := e in [VString d; VString s; VString n; VInt id; VBytes (x_egob_encode (wire_of td))].

Lemma Forall_map_filter {A B} (P : B -> Prop) (f : A -> B) g l : Forall P (map f l) -> Forall P (map f (filter g l)).
Proof. induction l as [|a l IH]; intros H; [constructor|]. inversion H; subst. cbn [filter]. destruct (g a); [constructor|]; auto. Qed.

Section Ops.
  Context {X : FloatLib} {L : CaseLib} {G : GobLib} {F : Float32Lib} {E : EGobLib}.
  Context (HX : FloatLib_ok X) (HG : GobLib_ok G) (HL : CaseLib_ok L) (HF : Float32Lib_ok F) (HE : EGobLib_ok E).
  Context (I : einfos) (i0 : idtable) (ths : list idthread).
  Context (Hids : idreach (i0, ths)) (HI : sysinfos ths I).
  Context (t0 : idtable) (Ht0 : interns i0 t0).

  Notation pre := (pre I i0).
  Notation does := (does I i0 t0).
  Notation doesQ := (doesQ I i0 t0).

  (** ** Rows and structs *)
  Lemma row_database d : structToRow (i_databases I) (Some (databasesRow d)) = if fits d then Ok (Some [VString d]) else Panic.
  Proof.
    destruct (ss_databases _ _ HI). unfold structToRow. rewrite si_typ, si_types. unfold databasesRow. cbn [gs_type gs_fields databasesType st_name].
    rewrite bytes_eqb_refl. cbn [fieldsToRow fieldToValue text_column ct_notnull ct_type ct_size valueString]. rewrite fits_ltb.
    destruct (fits d); reflexivity.
  Qed.
  Lemma row_schema d s : structToRow (i_schemas I) (Some (schemasRow d s)) =
    if fits d && fits s then Ok (Some [VString d; VString s]) else Panic.
  Proof.
    destruct (ss_schemas _ _ HI). unfold structToRow. rewrite si_typ, si_types. unfold schemasRow. cbn [gs_type gs_fields schemasType st_name].
    rewrite bytes_eqb_refl. cbn [fieldsToRow fieldToValue text_column ct_notnull ct_type ct_size valueString]. rewrite !fits_ltb.
    destruct (fits d), (fits s); reflexivity.
  Qed.
  Lemma row_table d s n id o : structToRow (i_tables I) (Some (tablesRow d s n id o)) =
    let b := match o with Some b => b | None => [] end in
    if fits d && fits s && fits n && (zlen b <=? 8192) then Ok (Some [VString d; VString s; VString n; VInt id; VBytes b]) else Panic.
  Proof.
    destruct (ss_tables _ _ HI). unfold structToRow. rewrite si_typ, si_types. unfold tablesRow. cbn [gs_type gs_fields tablesType st_name].
    rewrite bytes_eqb_refl. cbn [fieldsToRow fieldToValue text_column number_column bytes_column ct_notnull ct_type ct_size valueString].
    rewrite !fits_ltb. rewrite Z.leb_antisym.
    destruct (fits d), (fits s), (fits n), (8192 <? _); reflexivity.
  Qed.
  Lemma row_sequence s z : structToRow (i_sequences I) (Some (sequencesRow s z)) = if fits s then Ok (Some [VString s; VInt z]) else Panic.
  Proof.
    destruct (ss_sequences _ _ HI). unfold structToRow. rewrite si_typ, si_types. unfold sequencesRow. cbn [gs_type gs_fields sequencesType st_name].
    rewrite bytes_eqb_refl. cbn [fieldsToRow fieldToValue text_column number_column ct_notnull ct_type ct_size valueString]. rewrite fits_ltb.
    destruct (fits s); reflexivity.
  Qed.

  Lemma of_database d : of_struct databasesType (databasesRow d).
  Proof. split; [reflexivity|]. repeat constructor. Qed.
  Lemma of_schema d s : of_struct schemasType (schemasRow d s).
  Proof. split; [reflexivity|]. repeat constructor. Qed.
  Lemma of_table d s n id o : is_i64 id -> of_struct tablesType (tablesRow d s n id o).
  Proof. intros Hi. split; [reflexivity|]. repeat constructor; cbn; unfold is_i64 in Hi; lia. Qed.
  Lemma of_sequence s z : is_i64 z -> of_struct sequencesType (sequencesRow s z).
  Proof. intros Hi. split; [reflexivity|]. repeat constructor; cbn; unfold is_i64 in Hi; lia. Qed.

  Lemma wrap_i64 z : is_i64 z -> wrapInt KInt64 z = z.
  Proof. intros H. unfold is_i64 in H. unfold wrapInt. cbn [int_size]. rewrite Z.mod_small; lia. Qed.

  Lemma read_database d d0 : RowToStruct (i_databases I) [VString d] (databasesRow d0) = Ok (databasesRow d).
  Proof. destruct (ss_databases _ _ HI). unfold RowToStruct. rewrite si_typ, si_types. reflexivity. Qed.
  Lemma read_schema d s d0 s0 : RowToStruct (i_schemas I) [VString d; VString s] (schemasRow d0 s0) = Ok (schemasRow d s).
  Proof. destruct (ss_schemas _ _ HI). unfold RowToStruct. rewrite si_typ, si_types. reflexivity. Qed.
  Lemma read_table d s n id b d0 s0 n0 id0 o : is_i64 id ->
    RowToStruct (i_tables I) [VString d; VString s; VString n; VInt id; VBytes b] (tablesRow d0 s0 n0 id0 o) = Ok (tablesRow d s n id (Some b)).
  Proof.
    intros Hi. destruct (ss_tables _ _ HI). unfold RowToStruct. rewrite si_typ, si_types. unfold tablesRow at 1 2. cbn [gs_type tablesType st_name].
    rewrite bytes_eqb_refl. cbn -[wrapInt]. now rewrite wrap_i64.
  Qed.
  Lemma read_sequence s z s0 z0 : is_i64 z -> RowToStruct (i_sequences I) [VString s; VInt z] (sequencesRow s0 z0) = Ok (sequencesRow s z).
  Proof.
    intros Hi. destruct (ss_sequences _ _ HI). unfold RowToStruct. rewrite si_typ, si_types. unfold sequencesRow at 1 2. cbn [gs_type sequencesType st_name].
    rewrite bytes_eqb_refl. cbn -[wrapInt]. now rewrite wrap_i64.
  Qed.

  (** ** Going on *)
  Lemma pre_same {A} h w x t c (p : prog A) r w' lg : sys I i0 h w x t -> holds t c -> exec w x p = (r, w', lg) -> view w' x = Some t ->
    gentle_log x lg -> opened x lg = closed x lg -> pre (h ++ lg) w' x c.
  Proof. intros S H Ex V G1 O1. exists t. split; [|exact H]. eapply sys_ext; try eassumption. reflexivity. Qed.

  Lemma pre_change {A} h w x t c' (p : prog A) r w' lg t' tid : sys I i0 h w x t -> exec w x p = (r, w', lg) -> view w' x = Some t' ->
    gentle_log x lg -> opened x lg = closed x lg -> only_table tid t t' -> tid <> 0 -> holds t' c' -> pre (h ++ lg) w' x c'.
  Proof.
    intros S Ex V G1 O1 Ot Hn H. exists t'. split; [|exact H]. eapply sys_ext; try eassumption. apply Ot; [lia|congruence].
  Qed.

  (** ** Lookups *)
  Lemma has_find {A B} (eqb : A -> A -> bool) (l : list (A * B)) a :
    has eqb (map fst l) a = match find (fun e => eqb a (fst e)) l with Some _ => true | None => false end.
  Proof. induction l as [|[b v] l IH]; [reflexivity|]. cbn. destruct (eqb a b); [reflexivity|exact IH]. Qed.

  Lemma lookup_database d c : fits d = true ->
    does (TypedTableLookup (i_databases I) (databasesRow d)) c (Ok (databasesRow d, if has bytes_eqb (c_databases c) d then None else Some EOF)) c.
  Proof.
    intros Hf h w x (t & S & Hh) Hi. pose proof (sys_databases HX HG HL I i0 ths Hids HI _ _ _ _ S) as CO.
    assert (ti_tid (i_databases I) = 17) as Et by apply (si_tid _ _ _ _ _ _ _ _ (ss_databases _ _ HI)).
    destruct (generic_lookup HX HG h w x t (i_databases I) kc1 databasesType (databasesRow d) [VString d] CO (of_database d)
      ltac:(rewrite row_database, Hf; reflexivity) (fun d => [VString d]) (bytes_eqb d) (c_databases c)
      ltac:(rewrite Et; apply (ho_databases _ _ Hh)) (fun a _ => same_key1 d a)) as (r & w' & lg & Ex & V & G1 & O1 & Hr).
    exists r, w', lg. do 3 (split; [assumption|]). split; [eapply pre_same; eassumption|]. unfold has.
    destruct (find (bytes_eqb d) (c_databases c)) as [a|].
    - destruct Hr as (Ha & Ea & ->). rewrite read_database. cbn [rbind].
      replace (existsb (bytes_eqb d) (c_databases c)) with true; [|symmetry; apply existsb_exists; eauto].
      apply bytes_eqb_eq in Ea. now rewrite Ea.
    - now destruct Hr as (-> & ->).
  Qed.
  Lemma lookup_database_long d c : fits d = false -> does (TypedTableLookup (i_databases I) (databasesRow d)) c Panic c.
  Proof.
    intros Hf. eapply (lookup_panics HX HG); [exact (sys_databases HX HG HL I i0 ths Hids HI)|]. now rewrite row_database, Hf.
  Qed.

  Lemma lookup_schema d s c : fits d && fits s = true ->
    does (TypedTableLookup (i_schemas I) (schemasRow d s)) c
      (Ok (schemasRow d s, if has schema_eqb (c_schemas c) (d, s) then None else Some EOF)) c.
  Proof.
    intros Hf h w x (t & S & Hh) Hi. pose proof (sys_schemas HX HG HL I i0 ths Hids HI _ _ _ _ S) as CO.
    assert (ti_tid (i_schemas I) = 18) as Et by apply (si_tid _ _ _ _ _ _ _ _ (ss_schemas _ _ HI)).
    destruct (generic_lookup HX HG h w x t (i_schemas I) kc2 schemasType (schemasRow d s) [VString d; VString s] CO (of_schema d s)
      ltac:(rewrite row_schema, Hf; reflexivity) (fun e => [VString (fst e); VString (snd e)]) (schema_eqb (d, s)) (c_schemas c)
      ltac:(rewrite Et; apply (ho_schemas _ _ Hh)) (fun a _ => same_key2 d s (fst a) (snd a))) as (r & w' & lg & Ex & V & G1 & O1 & Hr).
    exists r, w', lg. do 3 (split; [assumption|]). split; [eapply pre_same; eassumption|]. unfold has.
    destruct (find (schema_eqb (d, s)) (c_schemas c)) as [[a b]|].
    - destruct Hr as (Ha & Ea & ->). cbn [fst snd]. rewrite read_schema. cbn [rbind].
      replace (existsb (schema_eqb (d, s)) (c_schemas c)) with true; [|symmetry; apply existsb_exists; eauto].
      unfold schema_eqb in Ea. cbn [fst snd] in Ea. apply andb_true_iff in Ea as [E1 E2]. apply bytes_eqb_eq in E1, E2. now rewrite E1, E2.
    - now destruct Hr as (-> & ->).
  Qed.
  Lemma lookup_schema_long d s c : fits d && fits s = false -> does (TypedTableLookup (i_schemas I) (schemasRow d s)) c Panic c.
  Proof.
    intros Hf. eapply (lookup_panics HX HG); [exact (sys_schemas HX HG HL I i0 ths Hids HI)|]. now rewrite row_schema, Hf.
  Qed.

  Lemma lookup_table d s n c : fits d && fits s && fits n = true ->
    does (TypedTableLookup (i_tables I) (tablesRow d s n 0 None)) c
      (Ok (match find_table (c_tables c) (d, s, n) with
           | Some (id, td) => (tablesRow d s n id (Some (x_egob_encode (wire_of td))), None)
           | None => (tablesRow d s n 0 None, Some EOF)
           end)) c.
  Proof.
    intros Hf h w x (t & S & Hh) Hi. pose proof (sys_tables HX HG HL I i0 ths Hids HI _ _ _ _ S) as CO.
    assert (ti_tid (i_tables I) = 19) as Et by apply (si_tid _ _ _ _ _ _ _ _ (ss_tables _ _ HI)).
    destruct (generic_lookup HX HG h w x t (i_tables I) kc3 tablesType (tablesRow d s n 0 None)
      [VString d; VString s; VString n; VInt 0; VBytes []] CO (of_table d s n 0 None ltac:(unfold is_i64; lia))
      ltac:(rewrite row_table; cbv zeta; rewrite Hf; reflexivity) table_row (fun e => table_eqb (d, s, n) (fst e)) (c_tables c)
      ltac:(rewrite Et; apply (ho_tables _ _ Hh))) as (r & w' & lg & Ex & V & G1 & O1 & Hr).
    { intros [[[a b] e] [id td]] _. apply same_key3. }
    exists r, w', lg. do 3 (split; [assumption|]). split; [eapply pre_same; eassumption|]. unfold find_table.
    destruct (find (fun e => table_eqb (d, s, n) (fst e)) (c_tables c)) as [[[[a b] e] [id td]]|].
    - destruct Hr as (Ha & Ea & ->). cbn [table_row snd fst] in *.
      assert (is_i64 id) as Hid.
      { destruct (rows_facts HX HG _ _ _ _ _ _ CO) as (Hr & _).
        assert (In (table_row (a, b, e, (id, td))) (rows_in t (ti_tid (i_tables I)))) as Hin.
        { rewrite Et. eapply Permutation_in; [apply Permutation_sym; apply (ho_tables _ _ Hh)|]. apply in_map_iff. eexists. split; [|exact Ha]. reflexivity. }
        destruct (Hr _ Hin) as [W _]. cbn [table_row] in W. do 3 (apply Forall_inv_tail in W). apply Forall_inv in W. exact W. }
      rewrite read_table by exact Hid. cbn [rbind].
      unfold table_eqb, schema_eqb in Ea. cbn [fst snd] in Ea. rewrite !andb_true_iff in Ea. destruct Ea as [[E1 E2] E3].
      apply bytes_eqb_eq in E1, E2, E3. now rewrite E1, E2, E3.
    - now destruct Hr as (_ & ->).
  Qed.
  Lemma lookup_table_long d s n c : fits d && fits s && fits n = false -> does (TypedTableLookup (i_tables I) (tablesRow d s n 0 None)) c Panic c.
  Proof.
    intros Hf. eapply (lookup_panics HX HG); [exact (sys_tables HX HG HL I i0 ths Hids HI)|]. rewrite row_table. cbv zeta. now rewrite Hf.
  Qed.

  (** ** Inserts and deletes *)
  Ltac other Ot := match goal with |- context [rows_in ?t ?k] => rewrite (Ot k ltac:(lia) ltac:(lia)) end.

  Lemma insert_database d c : fits d = true ->
    does (TypedTableInsert (i_databases I) [Some (databasesRow d)]) c
      (if has bytes_eqb (c_databases c) d then Err ErrDuplicateKey else Ok tt)
      (if has bytes_eqb (c_databases c) d then c else with_databases c (d :: c_databases c)).
  Proof.
    intros Hf h w x (t & S & Hh) Hi. pose proof (sys_databases HX HG HL I i0 ths Hids HI _ _ _ _ S) as CO.
    assert (ti_tid (i_databases I) = 17) as Et by apply (si_tid _ _ _ _ _ _ _ _ (ss_databases _ _ HI)).
    destruct (generic_insert HX HG HF h w x t (i_databases I) kc1 databasesType (databasesRow d) [VString d] CO (of_database d)
      ltac:(rewrite row_database, Hf; reflexivity) (fun d => [VString d]) (bytes_eqb d) (c_databases c)
      ltac:(rewrite Et; apply (ho_databases _ _ Hh)) (fun a _ => same_key1 d a) (si_made _ _ _ _ _ _ _ _ (ss_databases _ _ HI)))
      as (w' & lg & t' & Ex & V & G1 & O1 & Ot & P). rewrite Et in *.
    eexists _, w', lg. split; [exact Ex|]. do 2 (split; [assumption|]). split; [|reflexivity].
    eapply pre_change; try eassumption; [lia|]. destruct Hh as [H0 H1 H2 H3 H4]. unfold has.
    destruct (existsb (bytes_eqb d) (c_databases c)); (constructor; try other Ot; try assumption).
    cbn [with_databases c_databases c_schemas app]. constructor; assumption.
  Qed.
  Lemma insert_database_long d c : fits d = false -> does (TypedTableInsert (i_databases I) [Some (databasesRow d)]) c Panic c.
  Proof.
    intros Hf. eapply (insert_panics HX HG); [exact (sys_databases HX HG HL I i0 ths Hids HI)|]. now rewrite row_database, Hf.
  Qed.

  Lemma insert_schema d s c : fits d && fits s = true ->
    does (TypedTableInsert (i_schemas I) [Some (schemasRow d s)]) c
      (if has schema_eqb (c_schemas c) (d, s) then Err ErrDuplicateKey else Ok tt)
      (if has schema_eqb (c_schemas c) (d, s) then c else with_schemas c ((d, s) :: c_schemas c)).
  Proof.
    intros Hf h w x (t & S & Hh) Hi. pose proof (sys_schemas HX HG HL I i0 ths Hids HI _ _ _ _ S) as CO.
    assert (ti_tid (i_schemas I) = 18) as Et by apply (si_tid _ _ _ _ _ _ _ _ (ss_schemas _ _ HI)).
    destruct (generic_insert HX HG HF h w x t (i_schemas I) kc2 schemasType (schemasRow d s) [VString d; VString s] CO (of_schema d s)
      ltac:(rewrite row_schema, Hf; reflexivity) (fun e => [VString (fst e); VString (snd e)]) (schema_eqb (d, s)) (c_schemas c)
      ltac:(rewrite Et; apply (ho_schemas _ _ Hh)) (fun a _ => same_key2 d s (fst a) (snd a)) (si_made _ _ _ _ _ _ _ _ (ss_schemas _ _ HI)))
      as (w' & lg & t' & Ex & V & G1 & O1 & Ot & P). rewrite Et in *.
    eexists _, w', lg. split; [exact Ex|]. do 2 (split; [assumption|]). split; [|reflexivity].
    eapply pre_change; try eassumption; [lia|]. destruct Hh as [H0 H1 H2 H3 H4]. unfold has.
    destruct (existsb (schema_eqb (d, s)) (c_schemas c)); (constructor; try other Ot; try assumption).
    cbn [with_schemas c_databases c_schemas map fst snd]. apply andb_true_iff in Hf as [Hd Hs].
    rewrite !Forall_app in *. destruct H0 as (A1 & A2 & A3). repeat split; try assumption; constructor; assumption.
  Qed.
  Lemma insert_schema_long d s c : fits d && fits s = false -> does (TypedTableInsert (i_schemas I) [Some (schemasRow d s)]) c Panic c.
  Proof.
    intros Hf. eapply (insert_panics HX HG); [exact (sys_schemas HX HG HL I i0 ths Hids HI)|]. now rewrite row_schema, Hf.
  Qed.

  Lemma insert_table d s n id td c : fits d && fits s && fits n && def_fits td = true -> is_i64 id ->
    does (TypedTableInsert (i_tables I) [Some (tablesRow d s n id (Some (x_egob_encode (wire_of td))))]) c
      (if has table_eqb (map fst (c_tables c)) (d, s, n) then Err ErrDuplicateKey else Ok tt)
      (if has table_eqb (map fst (c_tables c)) (d, s, n) then c else with_tables c (((d, s, n), (id, td)) :: c_tables c)).
  Proof.
    intros Hf Hid h w x (t & S & Hh) Hi. pose proof (sys_tables HX HG HL I i0 ths Hids HI _ _ _ _ S) as CO.
    assert (ti_tid (i_tables I) = 19) as Et by apply (si_tid _ _ _ _ _ _ _ _ (ss_tables _ _ HI)).
    destruct (generic_insert HX HG HF h w x t (i_tables I) kc3 tablesType _ (table_row ((d, s, n), (id, td))) CO
      (of_table d s n id (Some (x_egob_encode (wire_of td))) Hid)
      ltac:(rewrite row_table; cbv zeta; unfold def_fits in Hf; rewrite Hf; reflexivity) table_row (fun e => table_eqb (d, s, n) (fst e)) (c_tables c)
      ltac:(rewrite Et; apply (ho_tables _ _ Hh))) as (w' & lg & t' & Ex & V & G1 & O1 & Ot & P).
    { intros [[[a b] e] [id' td']] _. apply same_key3. } { exact (si_made _ _ _ _ _ _ _ _ (ss_tables _ _ HI)). }
    rewrite Et in *. unfold has. rewrite existsb_map.
    eexists _, w', lg. split; [exact Ex|]. do 2 (split; [assumption|]). split; [|reflexivity].
    eapply pre_change; try eassumption; [lia|]. destruct Hh as [H0 H1 H2 H3 H4].
    destruct (existsb _ (c_tables c)); (constructor; try other Ot; assumption).
  Qed.
  Lemma insert_table_long d s n id td c : fits d && fits s && fits n && def_fits td = false ->
    does (TypedTableInsert (i_tables I) [Some (tablesRow d s n id (Some (x_egob_encode (wire_of td))))]) c Panic c.
  Proof.
    intros Hf. eapply (insert_panics HX HG); [exact (sys_tables HX HG HL I i0 ths Hids HI)|]. rewrite row_table. cbv zeta.
    unfold def_fits in Hf. now rewrite Hf.
  Qed.

  Notation always := (fun (_ : bool) (_ : row) => pret (true, @inl bool error true)).

  Lemma delete_database d c : fits d = true ->
    does (TypedTableDelete (i_databases I) (Some (databasesRow d)) (Some (databasesRow d)) always false) c
      (Ok (has bytes_eqb (c_databases c) d, None)) (with_databases c (without bytes_eqb (c_databases c) d)).
  Proof.
    intros Hf h w x (t & S & Hh) Hi. pose proof (sys_databases HX HG HL I i0 ths Hids HI _ _ _ _ S) as CO.
    assert (ti_tid (i_databases I) = 17) as Et by apply (si_tid _ _ _ _ _ _ _ _ (ss_databases _ _ HI)).
    destruct (generic_delete HX HG h w x t (i_databases I) kc1 databasesType (databasesRow d) [VString d] CO (of_database d)
      ltac:(rewrite row_database, Hf; reflexivity) (fun d => [VString d]) (bytes_eqb d) (c_databases c)
      ltac:(rewrite Et; apply (ho_databases _ _ Hh)) (fun a _ => same_key1 d a))
      as (w' & lg & t' & Ex & V & G1 & O1 & Ot & P). rewrite Et in *.
    eexists _, w', lg. split; [exact Ex|]. do 2 (split; [assumption|]). split; [|reflexivity].
    eapply pre_change; try eassumption; [lia|]. destruct Hh as [H0 H1 H2 H3 H4].
    constructor; try other Ot; try assumption.
    cbn [with_databases c_databases c_schemas]. rewrite !Forall_app in *. destruct H0 as (A1 & A2). split; [|exact A2].
    apply Forall_forall. intros a Ha. apply filter_In in Ha as [Ha _]. exact (proj1 (Forall_forall _ _) A1 a Ha).
  Qed.
  Lemma delete_database_long d c : fits d = false ->
    does (TypedTableDelete (i_databases I) (Some (databasesRow d)) (Some (databasesRow d)) always false) c Panic c.
  Proof.
    intros Hf. eapply (delete_panics HX HG); [exact (sys_databases HX HG HL I i0 ths Hids HI)|]. now rewrite row_database, Hf.
  Qed.

  Lemma delete_schema d s c : fits d && fits s = true ->
    does (TypedTableDelete (i_schemas I) (Some (schemasRow d s)) (Some (schemasRow d s)) always false) c
      (Ok (has schema_eqb (c_schemas c) (d, s), None)) (with_schemas c (without schema_eqb (c_schemas c) (d, s))).
  Proof.
    intros Hf h w x (t & S & Hh) Hi. pose proof (sys_schemas HX HG HL I i0 ths Hids HI _ _ _ _ S) as CO.
    assert (ti_tid (i_schemas I) = 18) as Et by apply (si_tid _ _ _ _ _ _ _ _ (ss_schemas _ _ HI)).
    destruct (generic_delete HX HG h w x t (i_schemas I) kc2 schemasType (schemasRow d s) [VString d; VString s] CO (of_schema d s)
      ltac:(rewrite row_schema, Hf; reflexivity) (fun e => [VString (fst e); VString (snd e)]) (schema_eqb (d, s)) (c_schemas c)
      ltac:(rewrite Et; apply (ho_schemas _ _ Hh)) (fun a _ => same_key2 d s (fst a) (snd a)))
      as (w' & lg & t' & Ex & V & G1 & O1 & Ot & P). rewrite Et in *.
    eexists _, w', lg. split; [exact Ex|]. do 2 (split; [assumption|]). split; [|reflexivity].
    eapply pre_change; try eassumption; [lia|]. destruct Hh as [H0 H1 H2 H3 H4].
    constructor; try other Ot; try assumption.
    cbn [with_schemas c_databases c_schemas]. rewrite !Forall_app in *. destruct H0 as (A1 & A2 & A3). split; [exact A1|].
    split; apply Forall_map_filter; assumption.
  Qed.
  Lemma delete_schema_long d s c : fits d && fits s = false ->
    does (TypedTableDelete (i_schemas I) (Some (schemasRow d s)) (Some (schemasRow d s)) always false) c Panic c.
  Proof.
    intros Hf. eapply (delete_panics HX HG); [exact (sys_schemas HX HG HL I i0 ths Hids HI)|]. now rewrite row_schema, Hf.
  Qed.
End Ops.
