(** Initialising the package and the store. *)

From Verif Require Import ModelEngine SpecEngine LemmasBase LemmasKey LemmasValue LemmasIdent LemmasTree LemmasStore LemmasWorld
  LemmasHistory LemmasSerial LemmasTable LemmasContents LemmasTableFacts LemmasTableCalls LemmasTableTypes LemmasRows LemmasTyped
  LemmasExec LemmasSelect LemmasTypedTable LemmasCatalogue LemmasSystemTables LemmasEngineOps LemmasEngineCalls.

(** ** Identifiers that are there from the start *)
Section Constants.
  Context {L : CaseLib}.

  Lemma first_entries t ths : idreach (t, ths) -> forall m i, In (m, i) (entries idt_init) -> In (m, i) (entries t).
  Proof.
    intros H. remember (t, ths) as c eqn:Ec. revert t ths Ec. induction H as [|c c' Hc IH Hs]; intros t ths Ec m i Hi.
    - now injection Ec as <- <-.
    - destruct Hs as [t1 ths1 s q|t1 ths1 th ths2 t' th' Hs].
      + injection Ec as <- <-. eapply IH; [reflexivity|exact Hi].
      + injection Ec as <- <-. pose proof (IH _ _ eq_refl m i Hi) as H1. destruct (idreach_ok _ _ Hc) as [K1 K2].
        apply Forall_app in K2 as [_ K2]. inversion K2 as [|? ? K3 K4]; subst.
        destruct (thread_step_ok t1 th t' th' K1 K3 Hs) as (_ & K5 & _). auto.
  Qed.

  Lemma constant_returned t ths n k : idreach (t, ths) -> (length n <= 128)%nat -> In (Name n, k) (entries idt_init) ->
    exists ths', idreach (t, ths') /\ returned ths' n true k /\ forall s q i, returned ths s q i -> returned ths' s q i.
  Proof.
    intros Hr Hn Hk. pose proof (first_entries t ths Hr _ _ Hk) as Hi. destruct (idreach_ok _ _ Hr) as [K _].
    destruct (ID t n true) as [t1 j] eqn:E. pose proof (means_quoted n) as M. rewrite firstn_all2 in M by exact Hn.
    destruct (ID_spec t n true t1 j _ K M E) as (K1 & K2 & K3 & K4).
    assert (t1 = t) as -> by (apply K4, in_map_iff; exists (Name n, k); auto).
    assert (j = k) as -> by (eapply entries_id_unique; eassumption).
    destruct (ID_sequential t ths n true t k Hr E) as (ths' & H1 & H2 & H3). eauto.
  Qed.

  Definition same_returns (ths ths' : list idthread) : Prop := forall s q i, returned ths s q i -> returned ths' s q i.

  Lemma constants_returned t (l : list (string * Z)) : forall ths, idreach (t, ths) ->
    Forall (fun e => (length (str (fst e)) <= 128)%nat /\ In (Name (str (fst e)), snd e) (entries idt_init)) l ->
    exists ths', idreach (t, ths') /\ same_returns ths ths' /\ Forall (fun e => returned ths' (str (fst e)) true (snd e)) l.
  Proof.
    induction l as [|[n k] l IH]; intros ths Hr H.
    - exists ths. split; [exact Hr|]. split; [intros s q i; auto|constructor].
    - inversion H as [|? ? [H1 H2] H3]; subst. cbn [fst snd] in *.
      destruct (constant_returned t ths (str n) k Hr H1 H2) as (ths1 & R1 & R2 & R3).
      destruct (IH ths1 R1 H3) as (ths2 & S1 & S2 & S3). exists ths2. split; [exact S1|]. split; [intros s q i Hs; auto|].
      constructor; [cbn [fst snd]; auto|exact S3].
  Qed.
End Constants.

Definition system_names : list (string * Z) :=
  [("system", ID_SYSTEM); ("info", ID_INFO); ("sequences", ID_SEQUENCES); ("databases", ID_DATABASES); ("schemas", ID_SCHEMAS);
   ("tables", ID_TABLES); ("__rowid", ROWID)]%string.

Definition entry_eqb (a b : meaning * Z) : bool :=
  match fst a, fst b with Name x, Name y => bytes_eqb x y && (snd a =? snd b) | _, _ => false end.

Lemma system_names_first : Forall (fun e => (length (str (fst e)) <= 128)%nat /\ In (Name (str (fst e)), snd e) (entries idt_init)) system_names.
Proof.
  assert (forallb (fun e => (length (str (fst e)) <=? 128)%nat && existsb (entry_eqb (Name (str (fst e)), snd e)) (entries idt_init)) system_names = true) as H
    by (vm_compute; reflexivity).
  rewrite forallb_forall in H. apply Forall_forall. intros e He. specialize (H e He). apply andb_prop in H as [H1 H2].
  split; [now apply Nat.leb_le|]. apply existsb_exists in H2 as ([m i] & H2 & H3). unfold entry_eqb in H3. cbn [fst snd] in H3.
  destruct m as [|n]; [discriminate|]. apply andb_prop in H3 as [H3 H4]. apply bytes_eqb_eq in H3. apply Z.eqb_eq in H4. congruence.
Qed.

(** ** Names of columns *)
Definition ascii_runes : RuneLib := {|
  x_is_upper := fun r => (65 <=? r) && (r <=? 90);
  x_rune_lower := fun r => if (65 <=? r) && (r <=? 90) then r + 32 else r;
  x_is_letter := fun _ => false; x_is_digit := fun _ => false; x_is_space := fun _ => false
|}.

Lemma columnNameLoop_ascii (U : RuneLib) n : RuneLib_ascii U -> Forall (fun r => 0 <= r < 128) n -> forall b buf,
  @columnNameLoop U n b buf = @columnNameLoop ascii_runes n b buf.
Proof.
  intros HU. induction 1 as [|r n Hr Hn IH]; intros b buf; [reflexivity|]. cbn [columnNameLoop].
  destruct (HU r Hr) as [E1 E2]. rewrite E1, E2. cbn [x_is_upper x_rune_lower ascii_runes]. destruct ((65 <=? r) && (r <=? 90)); apply IH.
Qed.
Lemma columnName_ascii (U : RuneLib) n : RuneLib_ascii U -> Forall (fun r => 0 <= r < 128) n -> @columnName U n = @columnName ascii_runes n.
Proof.
  intros HU [|r n' Hr Hn]; [reflexivity|]. unfold columnName. destruct (HU r Hr) as [E1 E2]. rewrite E1, E2.
  cbn [x_is_upper x_rune_lower ascii_runes]. destruct ((65 <=? r) && (r <=? 90)); [|reflexivity]. f_equal. now apply columnNameLoop_ascii.
Qed.

(** ** The typed infos *)
Record colspec : Set := { cs_name : string; cs_type : coltype; cs_key : bool }.

Definition resolved {U : RuneLib} (fld : field) (c : colspec) : Prop :=
  exists tags, fieldTags (fd_tag fld) = Some tags /\
    match tag tags (str "name") with Some n => Some n | None => columnName (fd_name fld) end = Some (str (cs_name c)) /\
    fieldType tags (fd_type fld) = Some (cs_type c) /\
    match tag tags (str "primary") with Some _ => true | None => false end = cs_key c.

Fixpoint spec_key (idx : Z) (l : list colspec) : list Z :=
  match l with
  | [] => []
  | c :: l' => if cs_key c then MakeColumnKey (u32 idx) false :: spec_key (idx + 1) l' else spec_key (idx + 1) l'
  end.

Section Infos.
  Context {L : CaseLib} {U : RuneLib}.

  Lemma quiet_loop flds : forall idx, quiet (typedInfoLoop idx flds).
  Proof.
    induction flds as [|fld flds IH]; intros idx; cbn [typedInfoLoop]; [constructor|].
    destruct (fieldTags (fd_tag fld)) as [tags|]; [|constructor].
    destruct (match tag tags (str "name") with Some n => Some n | None => columnName (fd_name fld) end) as [n|]; [|constructor].
    apply quiet_bind; [repeat constructor|]. intros i. destruct (fieldType tags (fd_type fld)); [|constructor].
    apply quiet_bind; [apply IH|]. intros [[? ?] ?]. constructor.
  Qed.
  Lemma quiet_info tid tn st : quiet (MakeTypedInfo tid tn st).
  Proof. apply quiet_bind; [apply quiet_loop|]. intros [[? ?] ?]. constructor. Qed.

  Lemma loop_runs flds cs : Forall2 resolved flds cs -> forall t ths idx, idreach (t, ths) ->
    exists ids t' ths', qrun t (typedInfoLoop idx flds) = (Ok (ids, map cs_type cs, spec_key idx cs), t') /\ idreach (t', ths') /\
      same_returns ths ths' /\ interns t t' /\ Forall2 (fun c i => returned ths' (str (cs_name c)) true i) cs ids.
  Proof.
    induction 1 as [|fld c flds cs (tags & T1 & T2 & T3 & T4) HF IH]; intros t ths idx Hr.
    - exists [], t, ths. split; [reflexivity|]. split; [exact Hr|]. split; [intros s q i; auto|]. split; constructor.
    - cbn [typedInfoLoop]. rewrite T1, T2, T3. destruct (ID t (str (cs_name c)) true) as [t1 i] eqn:E1.
      destruct (ID_sequential t ths _ true t1 i Hr E1) as (ths1 & R1 & R2 & R3).
      destruct (IH t1 ths1 (idx + 1) R1) as (ids & t2 & ths2 & S1 & S2 & S3 & S4 & S5).
      exists (i :: ids), t2, ths2. split.
      + rewrite (qrun_bind (pID _ true) _ t i t1) by (unfold pID; cbn [qrun pret]; now rewrite E1).
        rewrite (qrun_bind _ _ t1 _ t2 S1). cbn [qrun pret map spec_key]. rewrite <- T4. destruct (tag tags (str "primary")); reflexivity.
      + split; [exact S2|]. split; [intros s q j Hs; auto|]. split; [|constructor; auto].
        eapply interns_trans; [|exact S4]. pose proof (interns_ID t (str (cs_name c)) true) as Hi. now rewrite E1 in Hi.
  Qed.

  Lemma info_runs {X : FloatLib} {G : GobLib} st cs tid tn t ths : Forall2 resolved (st_fields st) cs -> idreach (t, ths) ->
    exists ti t' ths', qrun t (MakeTypedInfo tid tn st) = (Ok ti, t') /\ idreach (t', ths') /\ same_returns ths ths' /\ interns t t' /\
      made_for ti st /\ ti_typ ti = st /\ ti_tid ti = tid /\ ti_tn ti = tn /\ ti_types ti = map cs_type cs /\ ti_primary ti = spec_key 0 cs /\
      ti_flds ti = map fd_name (st_fields st) /\ Forall2 (fun c i => returned ths' (str (cs_name c)) true i) cs (ti_cols ti).
  Proof.
    intros HR Hr. destruct (loop_runs _ _ HR t ths 0 Hr) as (ids & t' & ths' & S1 & S2 & S3 & S4 & S5).
    pose proof (qrun_bind _ (fun r : list Z * list coltype * list Z => let '(ids, cts, key) := r in
      pret {| ti_typ := st; ti_tid := tid; ti_tn := tn; ti_cols := ids; ti_types := cts; ti_primary := key;
            ti_flds := map fd_name (st_fields st) |}) t _ t' S1) as E1. cbn [qrun pret] in E1.
    eexists _, t', ths'. split; [exact E1|]. cbn [ti_typ ti_tid ti_tn ti_types ti_primary ti_flds ti_cols].
    repeat (split; [first [assumption|reflexivity]|]). split; [|repeat (split; [reflexivity|]); exact S5].
    destruct (exec (newStore t) 0 (MakeTypedInfo tid tn st)) as [[r w'] lg] eqn:Ex.
    destruct (exec_quiet 0 _ (quiet_info tid tn st) _ _ _ _ Ex) as (A1 & _). cbn [newStore w_sh sh_idt] in A1.
    unfold MakeTypedInfo in A1 at 1. rewrite E1 in A1. injection A1 as <- _.
    exists U, X, L, G, (newStore t), 0%nat, tid, tn, w', lg. exact Ex.
  Qed.

  Lemma resolved_ascii fld c : RuneLib_ascii U -> Forall (fun r => 0 <= r < 128) (fd_name fld) -> @resolved ascii_runes fld c -> resolved fld c.
  Proof. intros HU Ha (tags & T). exists tags. now rewrite (columnName_ascii U _ HU Ha). Qed.
End Infos.

Definition text_key (n : string) : colspec := {| cs_name := n; cs_type := text_column; cs_key := true |}.
Definition number_col (n : string) : colspec := {| cs_name := n; cs_type := number_column; cs_key := false |}.
Definition bytes_col (n : string) : colspec := {| cs_name := n; cs_type := bytes_column; cs_key := false |}.

Ltac resolve HU := apply (resolved_ascii _ _ HU); [repeat constructor; vm_compute; intuition congruence|
  eexists; split; [reflexivity|]; split; [vm_compute; reflexivity|]; split; vm_compute; reflexivity].

Lemma sequences_resolved {U : RuneLib} : RuneLib_ascii U -> Forall2 resolved (st_fields sequencesType) [text_key "sequence"; number_col "current"].
Proof. intros HU. repeat constructor; resolve HU. Qed.
Lemma databases_resolved {U : RuneLib} : RuneLib_ascii U -> Forall2 resolved (st_fields databasesType) [text_key "database"].
Proof. intros HU. repeat constructor; resolve HU. Qed.
Lemma schemas_resolved {U : RuneLib} : RuneLib_ascii U -> Forall2 resolved (st_fields schemasType) [text_key "database"; text_key "schema"].
Proof. intros HU. repeat constructor; resolve HU. Qed.
Lemma tables_resolved {U : RuneLib} : RuneLib_ascii U ->
  Forall2 resolved (st_fields tablesType) [text_key "database"; text_key "schema"; text_key "table"; number_col "table_id"; bytes_col "type"].
Proof. intros HU. repeat constructor; resolve HU. Qed.

Definition names_returned (ths : list idthread) : Prop := Forall (fun e => returned ths (str (fst e)) true (snd e)) system_names.

Section Made.
  Context {L : CaseLib}.

  Lemma proper_name ths n i : (length (str n) <= 128)%nat -> returned ths (str n) true i -> proper_id ths i.
  Proof.
    intros Hn H. exists (str n), true, (Name (firstn 128 (str n))). split; [exact H|]. split; [constructor|]. split; [discriminate|].
    cbn [meaning_text]. rewrite firstn_length. lia.
  Qed.

  Lemma make_sysinfo ths ti st tid tbl cs kc tb : names_returned ths -> In (tb, tbl) system_names -> (length (str tb) <= 128)%nat ->
    Forall (fun c => (length (str (cs_name c)) <= 128)%nat) cs -> small_cols kc -> is_u32 tid ->
    made_for ti st -> ti_typ ti = st -> ti_tid ti = tid -> ti_tn ti = systemTable tbl -> ti_types ti = map cs_type cs ->
    ti_primary ti = spec_key 0 cs -> spec_key 0 cs = keys_of kc -> ti_flds ti = map fd_name (st_fields st) ->
    Forall2 (fun c i => returned ths (str (cs_name c)) true i) cs (ti_cols ti) ->
    sysinfo ths ti st tid tbl (map cs_name cs) (map cs_type cs) kc.
  Proof.
    intros Hn Htb Hlb Hlen Hs Hu M1 M2 M3 M4 M5 M6 M7 M8 M9. constructor; try assumption; try congruence.
    - clear - M9. induction M9; cbn [map]; constructor; auto.
    - cbn [table_of tb_tt names_of tt_name tt_cols]. unfold names_of. cbn [tt_name tt_cols]. rewrite M4. cbn [systemTable tn_database tn_schema tn_table].
      unfold names_returned in Hn. rewrite Forall_forall in Hn. constructor; [|constructor; [|constructor]].
      + apply (proper_name ths "system"); [vm_compute; repeat constructor|]. apply (Hn ("system"%string, ID_SYSTEM)). cbn; auto.
      + apply (proper_name ths "info"); [vm_compute; repeat constructor|]. apply (Hn ("info"%string, ID_INFO)). cbn; auto.
      + apply (proper_name ths tb); [exact Hlb|]. apply (Hn (tb, tbl)). exact Htb.
      + clear - M9 Hlen. induction M9 as [|c i cs ids H M IH]; [constructor|]. inversion Hlen; subst. constructor; [|auto].
        eapply proper_name; eassumption.
  Qed.

  Lemma sysinfo_mono ths ths' ti st tid tbl cols cts kc : same_returns ths ths' -> sysinfo ths ti st tid tbl cols cts kc ->
    sysinfo ths' ti st tid tbl cols cts kc.
  Proof.
    intros H [T0 T1 T2 T3 T4 T5 T6 T7 T8 T9 T10]. constructor; try assumption.
    - clear - H T7. induction T7; constructor; auto.
    - eapply Forall_impl; [|exact T8]. intros i (s & q & m & R & P). exists s, q, m. auto.
  Qed.
  Lemma sysinfos_mono ths ths' I : same_returns ths ths' -> sysinfos ths I -> sysinfos ths' I.
  Proof. intros H [S1 S2 S3 S4]. constructor; eapply sysinfo_mono; eassumption. Qed.
  Lemma returned_mono ths ths' (cs : list colspec) ids : same_returns ths ths' -> Forall2 (fun c i => returned ths (str (cs_name c)) true i) cs ids ->
    Forall2 (fun c i => returned ths' (str (cs_name c)) true i) cs ids.
  Proof. intros H. induction 1; constructor; auto. Qed.

  Lemma infos_made {U : RuneLib} {X : FloatLib} {G : GobLib} t ths : RuneLib_ascii U -> idreach (t, ths) ->
    exists I t' ths', qrun t makeInfos = (Ok I, t') /\ idreach (t', ths') /\ interns t t' /\ sysinfos ths' I /\ names_returned ths'.
  Proof.
    intros HU Hr.
    destruct (info_runs _ _ sequencesTableId (systemTable ID_SEQUENCES) t ths (sequences_resolved HU) Hr)
      as (a & t1 & ths1 & A1 & A2 & A3 & A4 & A5).
    destruct (info_runs _ _ databasesTableId (systemTable ID_DATABASES) t1 ths1 (databases_resolved HU) A2)
      as (b & t2 & ths2 & B1 & B2 & B3 & B4 & B5).
    destruct (info_runs _ _ schemasTableId (systemTable ID_SCHEMAS) t2 ths2 (schemas_resolved HU) B2)
      as (c & t3 & ths3 & C1 & C2 & C3 & C4 & C5).
    destruct (info_runs _ _ tablesTableId (systemTable ID_TABLES) t3 ths3 (tables_resolved HU) C2)
      as (d & t4 & ths4 & D1 & D2 & D3 & D4 & D5).
    destruct (constants_returned t4 system_names ths4 D2 system_names_first) as (ths5 & E1 & E2 & E3).
    exists {| i_sequences := a; i_databases := b; i_schemas := c; i_tables := d |}, t4, ths5. split.
    { unfold makeInfos. rewrite (qrun_bind _ _ _ _ _ A1), (qrun_bind _ _ _ _ _ B1), (qrun_bind _ _ _ _ _ C1), (qrun_bind _ _ _ _ _ D1). reflexivity. }
    split; [exact E1|]. split; [repeat (eapply interns_trans; [eassumption|]); constructor|]. split; [|exact E3].
    assert (forall n k, In (n, k) system_names -> (length (str n) <= 128)%nat) as Hlen.
    { intros n k H. exact (proj1 (proj1 (Forall_forall _ _) system_names_first _ H)). }
    assert (forall n k, (k < 2 ^ 10)%nat -> (n < k)%nat -> Z.of_nat n < 2 ^ 31 - 1) as Hs by (intros n k H1 H2; change (2 ^ 10)%nat with 1024%nat in H1; lia).
    constructor.
    - destruct A5 as (P1 & P2 & P3 & P4 & P5 & P6 & P7 & P8). cbn [i_sequences].
      apply (make_sysinfo ths5 a sequencesType 16 ID_SEQUENCES [text_key "sequence"; number_col "current"] kc1 "sequences"); try assumption.
      + cbn; auto 10. + eapply Hlen. cbn; auto 10. + repeat constructor; vm_compute; repeat constructor. + repeat constructor. + unfold is_u32; lia.
      + vm_compute; reflexivity. + apply (returned_mono ths1); [|exact P8]. intros s q i Hi. auto.
    - destruct B5 as (P1 & P2 & P3 & P4 & P5 & P6 & P7 & P8). cbn [i_databases].
      apply (make_sysinfo ths5 b databasesType 17 ID_DATABASES [text_key "database"] kc1 "databases"); try assumption.
      + cbn; auto 10. + eapply Hlen. cbn; auto 10. + repeat constructor; vm_compute; repeat constructor. + repeat constructor. + unfold is_u32; lia.
      + vm_compute; reflexivity. + apply (returned_mono ths2); [|exact P8]. intros s q i Hi. auto.
    - destruct C5 as (P1 & P2 & P3 & P4 & P5 & P6 & P7 & P8). cbn [i_schemas].
      apply (make_sysinfo ths5 c schemasType 18 ID_SCHEMAS [text_key "database"; text_key "schema"] kc2 "schemas"); try assumption.
      + cbn; auto 10. + eapply Hlen. cbn; auto 10. + repeat constructor; vm_compute; repeat constructor. + repeat constructor. + unfold is_u32; lia.
      + vm_compute; reflexivity. + apply (returned_mono ths3); [|exact P8]. intros s q i Hi. auto.
    - destruct D5 as (P1 & P2 & P3 & P4 & P5 & P6 & P7 & P8). cbn [i_tables].
      apply (make_sysinfo ths5 d tablesType 19 ID_TABLES
        [text_key "database"; text_key "schema"; text_key "table"; number_col "table_id"; bytes_col "type"] kc3 "tables"); try assumption.
      + cbn; auto 10. + eapply Hlen. cbn; auto 10. + repeat constructor; vm_compute; repeat constructor. + repeat constructor. + unfold is_u32; lia.
      + vm_compute; reflexivity. + apply (returned_mono ths4); [|exact P8]. intros s q i Hi. auto.
  Qed.
End Made.

(** ** The store *)
Section InitStore.
  Context {X : FloatLib} {L : CaseLib} {G : GobLib} {F : Float32Lib} {E : EGobLib}.
  Context (HX : FloatLib_ok X) (HG : GobLib_ok G) (HL : CaseLib_ok L) (HF : Float32Lib_ok F).
  Context (I : einfos) (i0 : idtable) (ths : list idthread).
  Context (Hids : idreach (i0, ths)) (HI : sysinfos ths I) (HN : names_returned ths).

  (** Some of the system tables exist. *)
  Record part (l : list typedinfo) (h : history) (w : world) (x : nat) (t : tree) : Prop := {
    pt_ran : ran h w;
    pt_typed : Forall op_typed (map fst h);
    pt_drop : Forall no_drop (map fst h);
    pt_view : view w x = Some t;
    pt_interns : interns i0 (sh_idt (w_sh w));
    pt_recorded : Forall (fun ti => recorded t (ti_tid ti) i0 (tb_tt (table_of ti))) l;
    pt_open : forall y, opened y h = closed y h;
    pt_exists : forall k, exists_in t k -> In k (map ti_tid l)
  }.
  Definition at_init (l : list typedinfo) (R : Z -> list row) (h : history) (w : world) (x : nat) : Prop :=
    exists t, part l h w x t /\ forall k, 16 <= k <= 19 -> Permutation (rows_in t k) (R k).

  Lemma wire_later i1 ty : interns i0 i1 -> Forall (proper_id ths) (names_of ty) -> toWire i1 ty = toWire i0 ty.
  Proof.
    intros Hi Hp. destruct (interns_reach i0 i1 Hi ths Hids) as (ths1 & Hr1 & K).
    assert (forall i, proper_id ths i -> idGobEncode i1 i = idGobEncode i0 i) as He.
    { intros i (s & q & m & R & M & _). unfold idGobEncode.
      now rewrite (string_lemma i0 ths s q i m Hids R M), (string_lemma i1 ths1 s q i m Hr1 (K _ _ _ R) M). }
    unfold names_of in Hp. inversion Hp as [|? ? P1 Hp1]; subst. inversion Hp1 as [|? ? P2 Hp2]; subst. inversion Hp2 as [|? ? P3 Hp3]; subst.
    unfold toWire. rewrite !He by assumption. f_equal. clear - He Hp3. induction Hp3; cbn [map]; [reflexivity|]. rewrite He by assumption. congruence.
  Qed.

  Lemma part_can_open l h w x t ti st tid tbl cols cts kc : part l h w x t -> sysinfo ths ti st tid tbl cols cts kc -> In ti l -> can_open h w x t ti kc.
  Proof.
    intros [S1 S2 S3 S4 S5 S6 S7 S8] [T0 T1 T2 T3 T4 T5 T6 T7 T8 T9 T10] Hin. rewrite Forall_forall in S6. specialize (S6 ti Hin).
    destruct (open_interns HX HG h i0 ths w x t (ti_tid ti) (tb_tt (table_of ti)) (ti_tn ti) (ti_cols ti) (ti_types ti) (ti_primary ti)
      HL S1 S2 S5 Hids T8 S4 ltac:(congruence) S6) as [H _].
    destruct H as (w' & E1 & _); [repeat split|].
    constructor; try assumption; try congruence.
    - split; [exact S1|]. split; [exact S2|]. now apply no_drop_recreated.
    - rewrite E1. reflexivity.
  Qed.

  Lemma gentle_others x y lg : gentle_log x lg -> y <> x -> opened y lg = 0%nat /\ closed y lg = 0%nat.
  Proof.
    unfold gentle_log. intros Hg Hn. unfold opened, closed, count_calls. induction lg as [|[o out] lg IH]; [auto|].
    cbn [map fst] in Hg. inversion Hg as [|? ? H1 H2]; subst. specialize (IH H2). cbn [filter].
    destruct o as [z|z c|s q]; [destruct H1| |exact IH]. destruct H1 as (-> & _).
    assert ((x =? y)%nat = false) as -> by (apply Nat.eqb_neq; congruence). cbn [andb]. destruct out; exact IH.
  Qed.

  Lemma part_ext {A} l h w x t (p : prog A) r w' lg t' : part l h w x t -> exec w x p = (r, w', lg) -> gentle_log x lg ->
    opened x lg = closed x lg -> view w' x = Some t' -> rows_in t' 0 = rows_in t 0 -> part l (h ++ lg) w' x t'.
  Proof.
    intros [S1 S2 S3 S4 S5 S6 S7 S8] Ex Hg Ho Hv Hr. pose proof (exec_run x p w r w' lg Ex) as R. constructor.
    - eapply ran_ext; eassumption.
    - rewrite map_app. apply Forall_app. split; [exact S2|]. eapply gentle_typed; exact Hg.
    - rewrite map_app. apply Forall_app. split; [exact S3|]. eapply gentle_no_drop; exact Hg.
    - exact Hv.
    - eapply interns_trans; [exact S5|]. eapply run_later; [eapply ran_wok; exact S1|exact R].
    - unfold recorded in *. rewrite Hr. exact S6.
    - intros y. rewrite opened_app, closed_app, (S7 y). destruct (Nat.eq_dec y x) as [->|Ny]; [congruence|].
      destruct (gentle_others x y lg Hg Ny) as [-> ->]. reflexivity.
    - intros k (b & Hk). apply S8. exists b. now rewrite <- Hr.
  Qed.

  Lemma no_rowid ti st tid tbl cols cts kc i : sysinfo ths ti st tid tbl cols cts kc -> forallb (fun c => negb (bytes_eqb (firstn 128 (str c)) (str "__rowid"))) cols = true ->
    nth_error (ti_cols ti) i <> Some ROWID.
  Proof.
    intros S Hc Hn. pose proof (si_cols _ _ _ _ _ _ _ _ S) as HC. rewrite forallb_forall in Hc.
    assert (forall (cs : list string) (l : list Z) i j, Forall2 (fun c i => returned ths (str c) true i) cs l -> nth_error l i = Some j ->
      exists c, In c cs /\ returned ths (str c) true j) as HH.
    { clear. intros cs l i j H. revert i. induction H as [|c k cs l H1 H2 IH]; intros [|i] Hi; try discriminate.
      - injection Hi as ->. exists c. split; [now left|exact H1].
      - destruct (IH i Hi) as (c' & C1 & C2). exists c'. split; [now right|exact C2]. }
    destruct (HH _ _ _ _ HC Hn) as (c & C1 & C2). specialize (Hc c C1).
    unfold names_returned in HN. rewrite Forall_forall in HN. pose proof (HN ("__rowid"%string, ROWID) ltac:(cbn; auto 10)) as HR. cbn [fst snd] in HR.
    pose proof (proj1 (interning_lemma i0 ths (str c) true ROWID (str "__rowid") true ROWID _ _ Hids C2 HR (means_quoted _) (means_quoted _)) eq_refl) as Em.
    apply negb_true_iff in Hc. assert (firstn 128 (str c) = firstn 128 (str "__rowid")) as Ef by congruence. rewrite Ef in Hc. cbv in Hc. discriminate.
  Qed.

  Lemma part_create l h w x t ti st tid tbl cols cts kc : part l h w x t -> sysinfo ths ti st tid tbl cols cts kc ->
    16 <= tid -> ~ In tid (map ti_tid l) -> length cols = length cts -> Forall (fun cd => (fst cd < length cols)%nat) kc -> kc <> [] ->
    Forall (fun ct => is_u32 (ct_size ct)) cts ->
    forallb (fun c => negb (bytes_eqb (firstn 128 (str c)) (str "__rowid"))) cols = true ->
    exists w' lg t', exec w x (CreateTypedTable ti) = (Ok tt, w', lg) /\ part (ti :: l) (h ++ lg) w' x t' /\ only_table 0 t t'.
  Proof.
    intros P S Htid Hfresh Hlen Hkc Hne Hsz Hrow. pose proof P as [S1 S2 S3 S4 S5 S6 S7 S8]. pose proof S as [T0 T1 T2 T3 T4 T5 T6 T7 T8 T9 T10].
    assert (length (ti_cols ti) = length cols) as Hl by (clear - T7; induction T7; cbn; congruence).
    assert ((match ti_primary ti with [] => None | k => Some k end) = Some (keys_of kc)) as Ep.
    { rewrite T5. destruct kc as [|[c d] kc']; [contradiction|]. reflexivity. }
    unfold CreateTypedTable. rewrite Ep, T2, T4.
    destruct (create_outcome HX HG h w x t tid (ti_tn ti) (ti_cols ti) cts kc S1 S2 S4 T10 T9) as [_ Ho].
    specialize (Ho ltac:(intros Hx; apply Hfresh, S8; exact Hx) ltac:(unfold EngineTableId; lia) ltac:(congruence)) as [_ Ho].
    specialize (Ho ltac:(intros i Hi; exfalso; exact (no_rowid ti st tid tbl cols cts kc i S Hrow Hi)) ltac:(rewrite Hl; exact Hkc)).
    destruct (step w (Call x (CCreateTable tid (ti_tn ti) (ti_cols ti) cts (Some (keys_of kc))))) as [out w'] eqn:Es. cbn [fst] in Ho. subst out.
    destruct (create_records HX HG h w x t tid _ _ _ _ w' S1 S2 S4 T10 Es) as (t' & k & Ek & V & Hn & Hrec & Hperm & Ot).
    injection Ek as <-.
    exists w', [(Call x (CCreateTable tid (ti_tn ti) (ti_cols ti) cts (Some (keys_of kc))), ODone)], t'.
    split; [|split; [|exact Ot]].
    { unfold call, pbind. cbn [pthen exec]. rewrite Es. reflexivity. }
    assert (toWire (sh_idt (w_sh w)) (tb_tt (table_of ti)) = toWire i0 (tb_tt (table_of ti))) as Ew by (apply wire_later; assumption).
    unfold table_of in Ew. cbn [tb_tt] in Ew. rewrite T4, T5 in Ew.
    constructor.
    - eapply ran_ext; [exact S1|]. apply run_one. exact Es.
    - rewrite map_app. apply Forall_app. split; [exact S2|]. constructor; [|constructor]. cbn [fst op_typed].
      split; [exact T10|]. split; [exact Hsz|]. intros k [= <-]. exists kc. auto.
    - rewrite map_app. apply Forall_app. split; [exact S3|]. constructor; [exact Logic.I|constructor].
    - exact V.
    - eapply interns_trans; [exact S5|]. eapply run_later; [eapply ran_wok; exact S1|apply run_one; exact Es].
    - constructor.
      + unfold recorded in *. unfold table_of. cbn [tb_tt tb_tid]. rewrite T2, T4, T5, <- Ew. exact Hrec.
      + eapply Forall_impl; [|exact S6]. intros a Ha. unfold recorded in *. eapply Permutation_in; [symmetry; exact Hperm|]. now right.
    - intros y. rewrite opened_app, closed_app, (S7 y). unfold opened, closed, count_calls. cbn [filter].
      rewrite !andb_false_r. reflexivity.
    - intros j (b & Hj). eapply Permutation_in in Hj; [|exact Hperm]. cbn [map]. destruct Hj as [Hj|Hj].
      + left. congruence.
      + right. apply S8. exists b. exact Hj.
  Qed.

  Lemma init_create l R h w x ti st tid tbl cols cts kc : at_init l R h w x -> sysinfo ths ti st tid tbl cols cts kc ->
    16 <= tid -> ~ In tid (map ti_tid l) -> length cols = length cts -> Forall (fun cd => (fst cd < length cols)%nat) kc -> kc <> [] ->
    Forall (fun ct => is_u32 (ct_size ct)) cts ->
    forallb (fun c => negb (bytes_eqb (firstn 128 (str c)) (str "__rowid"))) cols = true ->
    exists w' lg, exec w x (CreateTypedTable ti) = (Ok tt, w', lg) /\ at_init (ti :: l) R (h ++ lg) w' x.
  Proof.
    intros (t & P & HR) S H1 H2 H3 H4 H5 H6 H7. destruct (part_create l h w x t ti st tid tbl cols cts kc P S H1 H2 H3 H4 H5 H6 H7) as (w' & lg & t' & Ex & P' & Ot).
    exists w', lg. split; [exact Ex|]. exists t'. split; [exact P'|]. intros k Hk. rewrite (Ot k) by lia. auto.
  Qed.

  Lemma init_insert l R h w x ti st tid tbl cols cts kc gs rows : at_init l R h w x -> sysinfo ths ti st tid tbl cols cts kc -> In ti l ->
    16 <= tid <= 19 -> R tid = [] -> Forall (of_struct st) gs -> Forall2 (fun g r => structToRow ti (Some g) = Ok (Some r)) gs rows ->
    (forall res have', inserts kc [] rows res have' -> res = Ok tt /\ Permutation have' rows) ->
    exists w' lg, exec w x (TypedTableInsert ti (map Some gs)) = (Ok tt, w', lg) /\
      at_init l (fun k => if k =? tid then rows else R k) (h ++ lg) w' x.
  Proof.
    intros (t & P & HR) S Hin Ht Hempty Hst Hrows Hins. pose proof (part_can_open _ _ _ _ _ _ _ _ _ _ _ _ P S Hin) as CO.
    pose proof (si_tid _ _ _ _ _ _ _ _ S) as Et. pose proof (si_made _ _ _ _ _ _ _ _ S) as Hm.
    destruct (typed_insert HX HG HF h w x t ti kc st gs rows CO Hm Hst Hrows) as (res & w' & lg & t' & have' & Ex & V & G1 & O1 & Ot & In1 & P1).
    rewrite Et in *. specialize (HR tid Ht) as HR1. rewrite Hempty in HR1. apply Permutation_sym, Permutation_nil in HR1. rewrite HR1 in In1.
    destruct (Hins _ _ In1) as [-> Hp]. exists w', lg. split; [exact Ex|]. exists t'. split.
    - eapply part_ext; try eassumption. apply Ot; lia.
    - intros k Hk. destruct (Z.eqb_spec k tid) as [->|Nk]; [eapply Permutation_trans; eassumption|]. rewrite (Ot k) by lia. auto.
  Qed.

  Lemma init_quiet {A} l R h w x (p : prog A) r i1 : at_init l R h w x -> quiet p -> qrun (sh_idt (w_sh w)) p = (r, i1) ->
    exists w' lg, exec w x p = (r, w', lg) /\ at_init l R (h ++ lg) w' x /\ sh_idt (w_sh w') = i1.
  Proof.
    intros (t & P & HR) Hq Hr. destruct (exec w x p) as [[r1 w'] lg] eqn:Ex.
    destruct (exec_quiet x p Hq _ _ _ _ Ex) as (A1 & A2 & A3 & A4 & A5). rewrite Hr in A1. injection A1 as -> ->.
    exists w', lg. split; [reflexivity|]. split; [|reflexivity]. exists t. split; [|exact HR].
    eapply part_ext; try eassumption; [congruence| |reflexivity]. destruct A2 as (A2 & _). rewrite A2. exact (pt_view _ _ _ _ _ P).
  Qed.

  Lemma quiet_encode l : quiet (pEncodeIds l).
  Proof. induction l as [|i l IH]; cbn [pEncodeIds]; [constructor|]. apply quiet_bind; [repeat constructor|]. intros s. apply quiet_bind; [exact IH|constructor]. Qed.
  Lemma qrun_encode t l : qrun t (pEncodeIds l) = (Ok (map (fun i => (if IsReserved i then x01 else x00) :: idString t i) l), t).
  Proof.
    induction l as [|i l IH]; [reflexivity|]. cbn [pEncodeIds map].
    rewrite (qrun_bind (pName i) _ t (idString t i) t) by reflexivity. rewrite (qrun_bind _ _ _ _ _ IH). reflexivity.
  Qed.
  Lemma quiet_row ti : quiet (initRow ti).
  Proof.
    unfold initRow, Encode. apply quiet_bind; [|intros ?; repeat (apply quiet_bind; [repeat constructor|intros ?]); constructor].
    apply quiet_bind; [apply quiet_encode|constructor].
  Qed.

  Lemma name_string i1 n i : interns i0 i1 -> (length (str n) <= 128)%nat -> returned ths (str n) true i -> idString i1 i = str n /\ IsReserved i = false.
  Proof.
    intros Hi Hn R. destruct (interns_reach i0 i1 Hi ths Hids) as (ths1 & Hr1 & K). pose proof (means_quoted (str n)) as M.
    split.
    - rewrite (string_lemma i1 ths1 _ true i _ Hr1 (K _ _ _ R) M). cbn [meaning_text]. now apply firstn_all2.
    - destruct (IsReserved i) eqn:Er; [|reflexivity]. apply (reserved_lemma i1 ths1 _ true i _ Hr1 (K _ _ _ R) M) in Er as (w & [=] & _).
  Qed.

  Lemma init_row i1 ti st tid tbl cols cts kc tb nkey : interns i0 i1 -> sysinfo ths ti st tid tbl cols cts kc -> In (tb, tbl) system_names ->
    Forall (fun c => (length (str c) <= 128)%nat) cols -> kc = map (fun i => (i, false)) (seq 0 nkey) ->
    qrun i1 (initRow ti) =
      (Ok (tablesRow (str "system") (str "info") (str tb) tid (Some (x_egob_encode (wire_of (system_def cols cts nkey))))), i1).
  Proof.
    intros Hi S Htb Hlen Hk. pose proof S as [T0 T1 T2 T3 T4 T5 T6 T7 T8 T9 T10].
    assert (forall n k, In (n, k) system_names -> idString i1 k = str n) as Hc.
    { intros n k Hn. apply (name_string i1 n k Hi).
      - exact (proj1 (proj1 (Forall_forall _ _) system_names_first _ Hn)).
      - exact (proj1 (Forall_forall _ _) HN _ Hn). }
    unfold initRow, Encode, infoType. cbn [ett_cols ett_version ett_types ett_key].
    erewrite qrun_bind by (rewrite (qrun_bind _ _ _ _ _ (qrun_encode _ _)); reflexivity).
    rewrite T3. cbn [systemTable tn_database tn_schema tn_table].
    rewrite (qrun_bind (pName ID_SYSTEM) _ i1 (str "system") i1) by (unfold pName; cbn [qrun pret]; rewrite (Hc "system"%string) by (cbn; auto 10); reflexivity).
    rewrite (qrun_bind (pName ID_INFO) _ i1 (str "info") i1) by (unfold pName; cbn [qrun pret]; rewrite (Hc "info"%string) by (cbn; auto 10); reflexivity).
    rewrite (qrun_bind (pName tbl) _ i1 (str tb) i1) by (unfold pName; cbn [qrun pret]; rewrite (Hc tb) by exact Htb; reflexivity).
    cbn [qrun pret]. rewrite T2. do 6 f_equal. unfold wire_of, system_def. cbn [td_cols td_types td_key]. rewrite T4, T5, Hk. f_equal.
    rewrite map_map. cbn [fst snd]. clear - T7 Hlen Hi Hids HL. induction T7 as [|c i cs l H1 H2 IH]; [reflexivity|]. inversion Hlen; subst.
    cbn [map]. rewrite IH by assumption. destruct (name_string i1 c i Hi ltac:(assumption) H1) as [-> ->]. reflexivity.
  Qed.

  Lemma exec_seq {A B} x (p : prog A) (k : A -> prog B) w a w1 l1 r w2 l2 :
    exec w x p = (Ok a, w1, l1) -> exec w1 x (k a) = (r, w2, l2) -> exec w x (pbind p k) = (r, w2, l1 ++ l2).
  Proof. intros E1 E2. now rewrite exec_pbind, E1, E2. Qed.

  Lemma at_init_interns l R h w x : at_init l R h w x -> interns i0 (sh_idt (w_sh w)).
  Proof. intros (t & P & _). exact (pt_interns _ _ _ _ _ P). Qed.

  Definition sys_rows : list ((bytes * bytes * bytes) * (Z * tabledef)) := c_tables first_catalogue.
  Definition defs_fit : bool := forallb (fun e => def_fits (snd (snd e))) sys_rows.

  Definition first_rows (k : Z) : list row :=
    if k =? 19 then map table_row sys_rows
    else if k =? 18 then [[VString (str "system"); VString (str "info")]; [VString (str "maho"); VString (str "public")]]
    else if k =? 17 then [[VString (str "system")]; [VString (str "maho")]]
    else if k =? 16 then [[VString (str "next_table_id"); VInt 512]]
    else [].

  Definition leads {A} (w : world) (x : nat) (p : prog A) (w1 : world) (l1 : history) (q : prog A) : Prop :=
    exec w x p = let '(r, w2, l2) := exec w1 x q in (r, w2, l1 ++ l2).
  Lemma leads_refl {A} w x (p : prog A) : leads w x p w [] p.
  Proof. unfold leads. destruct (exec w x p) as [[r w2] l2]. reflexivity. Qed.
  Lemma leads_step {A B} w x (p : prog B) w1 l1 (q : prog A) (k : A -> prog B) a w2 l2 : leads w x p w1 l1 (pbind q k) ->
    exec w1 x q = (Ok a, w2, l2) -> leads w x p w2 (l1 ++ l2) (k a).
  Proof.
    unfold leads. intros -> E2. rewrite exec_pbind, E2. destruct (exec w2 x (k a)) as [[r w3] l3]. now rewrite app_assoc.
  Qed.

  Lemma insert_rows_ok w x ti l u w' lg : exec w x (TypedTableInsert ti l) = (Ok u, w', lg) -> exists rows, structsToRows ti l = Ok rows.
  Proof.
    unfold TypedTableInsert. intros Ex. apply exec_pbind_ok in Ex as (a & w1 & h1 & h2 & _ & Ex & _).
    apply exec_pbind_ok in Ex as (b & w2 & h3 & h4 & Ex & _ & _). cbn [exec] in Ex. injection Ex as Ex _ _. eauto.
  Qed.

  Lemma ins_distinct kc (rows : list row) : (forall i j a b, nth_error rows i = Some a -> nth_error rows j = Some b -> same_key kc a b -> i = j) ->
    forall res have', inserts kc [] rows res have' -> res = Ok tt /\ Permutation have' rows.
  Proof.
    intros Hd. assert (forall rest have res have', (forall k, nth_error rest k = nth_error rows (length have + k)) ->
      (forall a, In a have -> exists i, (i < length have)%nat /\ nth_error rows i = Some a) ->
      inserts kc have rest res have' -> res = Ok tt /\ Permutation have' (rest ++ have)) as H.
    { induction rest as [|r rest IH]; intros have res have' Hr Hh Hi; inversion Hi as [|? ? ? ? ? Hn In2|? ? ? (r0 & R1 & R2)]; subst.
      - auto.
      - destruct (IH (r :: have) res have') as [-> P]; try assumption.
        + intros k. specialize (Hr (S k)). cbn [nth_error length] in *. rewrite Hr. f_equal. lia.
        + intros a [<-|Ha].
          * exists (length have). split; [cbn; lia|]. rewrite <- (Nat.add_0_r (length have)), <- Hr. reflexivity.
          * destruct (Hh a Ha) as (i & H1 & H2). exists i. split; [cbn; lia|exact H2].
        + split; [reflexivity|]. rewrite P. cbn. symmetry. apply Permutation_middle.
      - exfalso. destruct (Hh r0 R1) as (i & H1 & H2). pose proof (Hr 0%nat) as H3. cbn [nth_error] in H3. rewrite Nat.add_0_r in H3.
        specialize (Hd _ _ _ _ (eq_sym H3) H2 R2). lia. }
    intros res have' Hi. destruct (H rows [] res have' ltac:(reflexivity) ltac:(intros a []) Hi) as [-> P]. now rewrite app_nil_r in P.
  Qed.

  Lemma init_store h w x : at_init [] (fun _ => []) h w x ->
    (defs_fit = true -> exists w' lg, exec w x (initStore I) = (Ok tt, w', lg) /\
       at_init [i_tables I; i_schemas I; i_databases I; i_sequences I] first_rows (h ++ lg) w' x) /\
    (forall u w' lg, exec w x (initStore I) = (Ok u, w', lg) -> defs_fit = true).
  Proof.
    intros A0. pose proof HI as [SQ SD SS ST].
    pose proof (leads_refl w x (initStore I)) as W0. unfold initStore in W0 at 2.
    (* sequences *)
    destruct (init_create _ _ _ _ _ _ _ _ _ _ _ _ A0 SQ) as (w1 & l1 & E1 & A1);
      [lia|intros []|reflexivity|repeat constructor|discriminate|repeat constructor; unfold is_u32; cbn; lia|vm_compute; reflexivity|].
    destruct (init_insert _ _ _ _ _ _ _ _ _ _ _ _ [sequencesRow nextTableIdSequence 512] [[VString nextTableIdSequence; VInt 512]] A1 SQ)
      as (w2 & l2 & E2 & A2); [now left|lia|reflexivity|constructor; [apply of_sequence; unfold is_i64; lia|constructor]|
        constructor; [erewrite row_sequence by exact HI; reflexivity|constructor]| |].
    { apply ins_distinct. intros [|[|i]] [|[|j]] a b; cbn [nth_error]; try discriminate; auto; destruct i; discriminate || destruct j; discriminate. }
    eapply leads_step in W0; [|unfold initTable; eapply exec_seq; [exact E1|exact E2]].
    (* databases *)
    destruct (init_create _ _ _ _ _ _ _ _ _ _ _ _ A2 SD) as (w3 & l3 & E3 & A3);
      [lia|cbn [map]; rewrite (si_tid _ _ _ _ _ _ _ _ SQ); intros [H|[]]; discriminate H|reflexivity|repeat constructor|discriminate|
       repeat constructor; unfold is_u32; cbn; lia|vm_compute; reflexivity|].
    destruct (init_insert _ _ _ _ _ _ _ _ _ _ _ _ [databasesRow (str "system"); databasesRow (str "maho")]
      [[VString (str "system")]; [VString (str "maho")]] A3 SD)
      as (w4 & l4 & E4 & A4); [now left|lia|reflexivity|repeat constructor; apply of_database|
        repeat (constructor; [erewrite row_database by exact HI; reflexivity|]); constructor| |].
    { apply ins_distinct. intros [|[|i]] [|[|j]] a b; cbn [nth_error]; try (destruct i; discriminate); try (destruct j; discriminate); auto;
        intros [= <-] [= <-] K; apply same_key1 in K; discriminate K. }
    eapply leads_step in W0; [|unfold initTable; eapply exec_seq; [exact E3|exact E4]].
    (* schemas *)
    destruct (init_create _ _ _ _ _ _ _ _ _ _ _ _ A4 SS) as (w5 & l5 & E5 & A5);
      [lia|cbn [map]; rewrite (si_tid _ _ _ _ _ _ _ _ SQ), (si_tid _ _ _ _ _ _ _ _ SD); intros [H|[H|[]]]; discriminate H|reflexivity|
       repeat constructor|discriminate| repeat constructor; unfold is_u32; cbn; lia|vm_compute; reflexivity|].
    destruct (init_insert _ _ _ _ _ _ _ _ _ _ _ _ [schemasRow (str "system") (str "info"); schemasRow (str "maho") (str "public")]
      [[VString (str "system"); VString (str "info")]; [VString (str "maho"); VString (str "public")]] A5 SS)
      as (w6 & l6 & E6 & A6); [now left|lia|reflexivity|repeat constructor; apply of_schema|
        repeat (constructor; [erewrite row_schema by exact HI; reflexivity|]); constructor| |].
    { apply ins_distinct. intros [|[|i]] [|[|j]] a b; cbn [nth_error]; try (destruct i; discriminate); try (destruct j; discriminate); auto;
        intros [= <-] [= <-] K; apply same_key2 in K; discriminate K. }
    eapply leads_step in W0; [|unfold initTable; eapply exec_seq; [exact E5|exact E6]].
    (* tables *)
    destruct (init_create _ _ _ _ _ _ _ _ _ _ _ _ A6 ST) as (w7 & l7 & E7 & A7);
      [lia|cbn [map]; rewrite (si_tid _ _ _ _ _ _ _ _ SQ), (si_tid _ _ _ _ _ _ _ _ SD), (si_tid _ _ _ _ _ _ _ _ SS); intros [H|[H|[H|[]]]]; discriminate H|
       reflexivity|repeat constructor|discriminate| repeat constructor; unfold is_u32; cbn; lia|vm_compute; reflexivity|].
    eapply leads_step in W0; [|unfold initTable; eapply exec_seq; [exact E7|reflexivity]]. rewrite app_nil_r in W0.
    (* rows for the tables *)
    destruct (init_quiet _ _ _ _ _ (initRow (i_sequences I)) _ _ A7 (quiet_row _)
      (init_row _ _ _ _ _ _ _ _ "sequences" 1 (at_init_interns _ _ _ _ _ A7) SQ ltac:(cbn; auto 10) ltac:(repeat constructor; vm_compute; repeat constructor) eq_refl))
      as (w8 & l8 & E8 & A8 & _).
    eapply leads_step in W0; [|exact E8].
    destruct (init_quiet _ _ _ _ _ (initRow (i_databases I)) _ _ A8 (quiet_row _)
      (init_row _ _ _ _ _ _ _ _ "databases" 1 (at_init_interns _ _ _ _ _ A8) SD ltac:(cbn; auto 10) ltac:(repeat constructor; vm_compute; repeat constructor) eq_refl))
      as (w9 & l9 & E9 & A9 & _).
    eapply leads_step in W0; [|exact E9].
    destruct (init_quiet _ _ _ _ _ (initRow (i_schemas I)) _ _ A9 (quiet_row _)
      (init_row _ _ _ _ _ _ _ _ "schemas" 2 (at_init_interns _ _ _ _ _ A9) SS ltac:(cbn; auto 10) ltac:(repeat constructor; vm_compute; repeat constructor) eq_refl))
      as (w10 & l10 & E10 & A10 & _).
    eapply leads_step in W0; [|exact E10].
    destruct (init_quiet _ _ _ _ _ (initRow (i_tables I)) _ _ A10 (quiet_row _)
      (init_row _ _ _ _ _ _ _ _ "tables" 3 (at_init_interns _ _ _ _ _ A10) ST ltac:(cbn; auto 10) ltac:(repeat constructor; vm_compute; repeat constructor) eq_refl))
      as (w11 & l11 & E11 & A11 & _).
    eapply leads_step in W0; [|exact E11].
    match type of W0 with leads _ _ _ _ _ (TypedTableInsert _ (map Some ?gs)) => set (gs0 := gs) in W0 end.
    unfold leads in W0. split.
    - intros Hfit. unfold defs_fit, sys_rows, first_catalogue, system_table in Hfit. cbn [c_tables forallb snd] in Hfit.
      apply andb_prop in Hfit as [F1 Hfit]. apply andb_prop in Hfit as [F2 Hfit]. apply andb_prop in Hfit as [F3 Hfit]. apply andb_prop in Hfit as [F4 _].
      destruct (init_insert _ _ _ _ _ _ _ _ _ _ _ _ gs0 (map table_row sys_rows) A11 ST)
        as (w12 & l12 & E12 & A12); [now left|lia|reflexivity| | | |].
      + repeat (constructor; [apply of_table; unfold is_i64; lia|]). constructor.
      + fold bytes_column in F4. unfold def_fits in *.
        repeat (constructor; [erewrite row_table by exact HI; cbv zeta; first [rewrite F1|rewrite F2|rewrite F3|rewrite F4]; reflexivity|]). constructor.
      + apply ins_distinct.
        intros i j a b Hi Hj K. rewrite nth_error_map in Hi, Hj. unfold sys_rows, first_catalogue in Hi, Hj. cbn [c_tables] in Hi, Hj.
        destruct i as [|[|[|[|[|i]]]]], j as [|[|[|[|[|j]]]]]; try reflexivity; cbn [nth_error option_map] in Hi, Hj; try discriminate;
          injection Hi as <-; injection Hj as <-; apply same_key3 in K; vm_compute in K; discriminate K.
      + eexists _, _. split; [rewrite W0, E12; reflexivity|].
        cbn [app]. rewrite !app_assoc. destruct A12 as (t & P & HR). exists t. split; [exact P|].
        intros k Hk. eapply Permutation_trans; [apply HR; exact Hk|]. unfold first_rows.
        destruct (Z.eqb_spec k 19); [reflexivity|]. destruct (Z.eqb_spec k 18); [reflexivity|]. destruct (Z.eqb_spec k 17); [reflexivity|].
        destruct (Z.eqb_spec k 16); [reflexivity|]. lia.
    - intros u w' lg Ex. rewrite W0 in Ex. destruct (exec w11 x (TypedTableInsert (i_tables I) (map Some gs0))) as [[r w12] l12] eqn:E12.
      injection Ex as -> _ _. destruct u. apply insert_rows_ok in E12 as (rows & E12). unfold gs0 in E12. cbn [map structsToRows] in E12.
      rewrite !(row_table I ths HI) in E12. cbv zeta in E12. unfold defs_fit, sys_rows, first_catalogue, system_table. cbn [c_tables forallb snd]. unfold def_fits. fold bytes_column.
      repeat match goal with
        | |- context [zlen (x_egob_encode ?b) <=? 8192] => destruct (zlen (x_egob_encode b) <=? 8192); [|rewrite !andb_false_r in E12; cbn [rbind] in E12]
      end; try reflexivity; exfalso; clear - E12;
      repeat match type of E12 with context [if ?b then _ else _] => destruct b end; cbn [rbind] in E12; discriminate E12.
  Qed.
End InitStore.
