(** The catalogue: identifiers, the system tables, and programs on them. *)

From Verif Require Import ModelEngine SpecEngine LemmasBase LemmasKey LemmasValue LemmasIdent LemmasTree LemmasStore LemmasWorld
  LemmasHistory LemmasSerial LemmasTable LemmasContents LemmasTableFacts LemmasTableCalls LemmasTableTypes LemmasRows LemmasTyped
  LemmasExec LemmasSelect LemmasTypedTable.

(** ** Identifiers *)
Section Ids.
  Context {L : CaseLib}.

  Lemma interns_ok t t' : interns t t' -> idt_ok t -> idt_ok t' /\ forall m i, In (m, i) (entries t) -> In (m, i) (entries t').
  Proof.
    induction 1 as [t|t s q t' H IH]; intros K; [auto|]. destruct (ID t s q) as [t1 i] eqn:E. cbn [fst] in *.
    destruct (means_total s q) as [m M]. destruct (ID_spec t s q t1 i m K M E) as (K1 & K2 & _). destruct (IH K1) as [K3 K4]. auto.
  Qed.

  Lemma known_entry t i : idt_ok t -> known_id t i -> exists m, In (m, i) (entries t).
  Proof.
    intros K (n & H). assert (In i (map fst (idt_names t))) as Hi by (apply in_map_iff; exists (i, n); auto).
    apply (ok_names_only t K) in Hi. apply in_map_iff in Hi as ([m j] & <- & Hm). now exists m.
  Qed.

  Lemma entry_known t m i : idt_ok t -> In (m, i) (entries t) -> known_id t i.
  Proof. intros K H. exists (meaning_text m). now apply (ok_names t K). Qed.

  Lemma name_stays t t' i : idt_ok t -> interns t t' -> known_id t i -> idString t' i = idString t i /\ known_id t' i.
  Proof.
    intros K H Hk. destruct (known_entry t i K Hk) as (m & Hm). destruct (interns_ok t t' H K) as [K' Hi].
    rewrite (idString_entry t m i K Hm), (idString_entry t' m i K' (Hi _ _ Hm)). split; [reflexivity|]. eapply entry_known; eauto.
  Qed.

  Lemma ID_later t t' s q i t1 : idt_ok t -> ID t s q = (t1, i) -> interns t1 t' -> ID t' s q = (t', i).
  Proof.
    intros K E H. destruct (means_total s q) as [m M]. destruct (ID_spec t s q t1 i m K M E) as (K1 & _ & Hm & _).
    destruct (interns_ok t1 t' H K1) as [K' Hi]. specialize (Hi _ _ Hm). destruct (ID t' s q) as [t2 j] eqn:E2.
    destruct (ID_spec t' s q t2 j m K' M E2) as (K2 & K3 & K4 & K5).
    assert (t2 = t') as -> by (apply K5, in_map_iff; exists (m, i); auto). now rewrite (entries_id_unique t' m j i K' K4 Hi).
  Qed.

  Lemma ID_quoted t n t1 i : idt_ok t -> (length n <= 128)%nat -> ID t n true = (t1, i) -> idString t1 i = n /\ IsReserved i = false.
  Proof.
    intros K Hn E. pose proof (means_quoted n) as M. destruct (ID_spec t n true t1 i _ K M E) as (K1 & _ & Hm & _).
    rewrite (idString_entry t1 _ i K1 Hm). cbn [meaning_text]. split; [now apply firstn_all2|].
    unfold entries in Hm. apply in_app_or in Hm as [Hm|Hm]; apply in_map_iff in Hm as ([s j] & E0 & Hm); [|discriminate].
    apply (f_equal snd) in E0. cbn [snd] in E0. subst j. apply (ok_pos t1 K1) in Hm. unfold IsReserved. now apply Z.ltb_ge.
  Qed.

  Lemma interns_ID t s q : interns t (fst (ID t s q)).
  Proof. eapply interns_step. constructor. Qed.
End Ids.

(** ** The system tables *)
Definition bytes_column : coltype := {| ct_type := BytesType; ct_size := 8192; ct_fixed := false; ct_notnull := true |}.

Record sysinfo {L : CaseLib} (ths : list idthread) (ti : typedinfo) (st : stype) (tid tbl : Z) (cols : list string)
    (cts : list coltype) (kc : list (nat * bool)) : Prop := {
  si_made : made_for ti st;
  si_typ : ti_typ ti = st;
  si_tid : ti_tid ti = tid;
  si_tn : ti_tn ti = systemTable tbl;
  si_types : ti_types ti = cts;
  si_key : ti_primary ti = keys_of kc;
  si_flds : ti_flds ti = map fd_name (st_fields st);
  si_cols : Forall2 (fun c i => returned ths (str c) true i) cols (ti_cols ti);
  si_proper : Forall (proper_id ths) (names_of (tb_tt (table_of ti)));
  si_small : small_cols kc;
  si_u32 : is_u32 tid
}.

Definition kc1 : list (nat * bool) := [(0%nat, false)].
Definition kc2 : list (nat * bool) := [(0%nat, false); (1%nat, false)].
Definition kc3 : list (nat * bool) := [(0%nat, false); (1%nat, false); (2%nat, false)].

Record sysinfos {L : CaseLib} (ths : list idthread) (I : einfos) : Prop := {
  ss_sequences : sysinfo ths (i_sequences I) sequencesType 16 ID_SEQUENCES ["sequence"; "current"]%string [text_column; number_column] kc1;
  ss_databases : sysinfo ths (i_databases I) databasesType 17 ID_DATABASES ["database"%string] [text_column] kc1;
  ss_schemas : sysinfo ths (i_schemas I) schemasType 18 ID_SCHEMAS ["database"; "schema"]%string [text_column; text_column] kc2;
  ss_tables : sysinfo ths (i_tables I) tablesType 19 ID_TABLES ["database"; "schema"; "table"; "table_id"; "type"]%string
    [text_column; text_column; text_column; number_column; bytes_column] kc3
}.

Definition no_drop (o : op) : Prop := match o with Call _ (CDropTable _) => False | _ => True end.

Lemma no_drop_recreated tid h : Forall no_drop (map fst h) -> recreated tid h = false.
Proof.
  induction h as [|[o out] h IH]; [reflexivity|]. intros H. inversion H as [|? ? H1 H2]; subst. cbn [fst] in H1.
  cbn [recreated]. destruct o as [y|y c|s q]; try (apply IH; exact H2). destruct c; try (apply IH; exact H2). contradiction.
Qed.

Lemma gentle_no_drop x lg : gentle_log x lg -> Forall no_drop (map fst lg).
Proof.
  apply Forall_impl. intros o. destruct o as [y|y c|s q]; cbn; try tauto. destruct c; tauto.
Qed.

Lemma exec_idt {A} {X : FloatLib} {L : CaseLib} {G : GobLib} w x (p : prog A) r w' lg : wok w -> exec w x p = (r, w', lg) ->
  interns (sh_idt (w_sh w)) (sh_idt (w_sh w')).
Proof. intros K E. apply exec_run in E. eapply run_later; eassumption. Qed.

Section Sys.
  Context {X : FloatLib} {L : CaseLib} {G : GobLib} {F : Float32Lib} {E : EGobLib}.
  Context (HX : FloatLib_ok X) (HG : GobLib_ok G) (HL : CaseLib_ok L) (HF : Float32Lib_ok F) (HE : EGobLib_ok E).
  Context (I : einfos) (i0 : idtable) (ths : list idthread).
  Context (Hids : idreach (i0, ths)) (HI : sysinfos ths I).

  (** The system tables exist in the contents of a transaction. *)
  Record sys (h : history) (w : world) (x : nat) (t : tree) : Prop := {
    sy_ran : ran h w;
    sy_typed : Forall op_typed (map fst h);
    sy_drop : Forall no_drop (map fst h);
    sy_view : view w x = Some t;
    sy_interns : interns i0 (sh_idt (w_sh w));
    sy_recorded : Forall (fun ti => recorded t (ti_tid ti) i0 (tb_tt (table_of ti)))
      [i_sequences I; i_databases I; i_schemas I; i_tables I];
    sy_open : opened x h = closed x h
  }.

  Lemma sys_can_open h w x t ti st tid tbl cols cts kc : sys h w x t -> sysinfo ths ti st tid tbl cols cts kc ->
    recorded t (ti_tid ti) i0 (tb_tt (table_of ti)) -> can_open h w x t ti kc.
  Proof.
    intros [S1 S2 S3 S4 S5 S6 S7] [T0 T1 T2 T3 T4 T5 T6 T7 T8 T9 T10] R.
    destruct (open_interns HX HG h i0 ths w x t (ti_tid ti) (tb_tt (table_of ti)) (ti_tn ti) (ti_cols ti) (ti_types ti) (ti_primary ti)
      HL S1 S2 S5 Hids T8 S4 ltac:(congruence) R) as [H _].
    destruct H as (w' & E1 & _); [repeat split|].
    constructor; try assumption; try congruence.
    - split; [exact S1|]. split; [exact S2|]. now apply no_drop_recreated.
    - rewrite E1. reflexivity.
  Qed.

  Lemma sys_sequences h w x t : sys h w x t -> can_open h w x t (i_sequences I) kc1.
  Proof. intros S. eapply sys_can_open; [exact S|exact (ss_sequences _ _ HI)|]. exact (proj1 (Forall_forall _ _) (sy_recorded _ _ _ _ S) _ (or_introl eq_refl)). Qed.
  Lemma sys_databases h w x t : sys h w x t -> can_open h w x t (i_databases I) kc1.
  Proof. intros S. eapply sys_can_open; [exact S|exact (ss_databases _ _ HI)|]. apply (proj1 (Forall_forall _ _) (sy_recorded _ _ _ _ S)). cbn; auto. Qed.
  Lemma sys_schemas h w x t : sys h w x t -> can_open h w x t (i_schemas I) kc2.
  Proof. intros S. eapply sys_can_open; [exact S|exact (ss_schemas _ _ HI)|]. apply (proj1 (Forall_forall _ _) (sy_recorded _ _ _ _ S)). cbn; auto. Qed.
  Lemma sys_tables h w x t : sys h w x t -> can_open h w x t (i_tables I) kc3.
  Proof. intros S. eapply sys_can_open; [exact S|exact (ss_tables _ _ HI)|]. apply (proj1 (Forall_forall _ _) (sy_recorded _ _ _ _ S)). cbn; auto. Qed.

  Lemma sys_ext {A} h w x t (p : prog A) r w' lg t' : sys h w x t -> exec w x p = (r, w', lg) -> gentle_log x lg ->
    opened x lg = closed x lg -> view w' x = Some t' -> rows_in t' 0 = rows_in t 0 -> sys (h ++ lg) w' x t'.
  Proof.
    intros [S1 S2 S3 S4 S5 S6 S7] Ex Hg Ho Hv Hr. pose proof (exec_run x p w r w' lg Ex) as R. constructor.
    - eapply ran_ext; eassumption.
    - rewrite map_app. apply Forall_app. split; [exact S2|]. eapply gentle_typed; exact Hg.
    - rewrite map_app. apply Forall_app. split; [exact S3|]. eapply gentle_no_drop; exact Hg.
    - exact Hv.
    - eapply interns_trans; [exact S5|]. eapply run_later; [eapply ran_wok; exact S1|exact R].
    - unfold recorded in *. rewrite Hr. exact S6.
    - rewrite opened_app, closed_app. congruence.
  Qed.

  (** ** Programs on the catalogue *)
  Definition pre (h : history) (w : world) (x : nat) (c : catalogue) : Prop := exists t, sys h w x t /\ holds t c.

  Context (t0 : idtable) (Ht0 : interns i0 t0).

  Definition doesQ {A} (p : prog A) (c : catalogue) (Q : res A -> idtable -> Prop) (c' : catalogue) : Prop :=
    forall h w x, pre h w x c -> interns t0 (sh_idt (w_sh w)) ->
    exists r w' lg, exec w x p = (r, w', lg) /\ gentle_log x lg /\ opened x lg = closed x lg /\ pre (h ++ lg) w' x c' /\
      Q r (sh_idt (w_sh w')).
  Definition does {A} (p : prog A) (c : catalogue) (r : res A) (c' : catalogue) : Prop := doesQ p c (fun r' _ => r' = r) c'.

  Lemma t0_ok : idt_ok t0.
  Proof. destruct (idreach_ok _ _ Hids) as [K _]. exact (proj1 (interns_ok _ _ Ht0 K)). Qed.

  Lemma pre_wok h w x c : pre h w x c -> wok w.
  Proof. intros (t & S & _). eapply ran_wok. exact (sy_ran _ _ _ _ S). Qed.

  Lemma doesQ_ret {A} (r : res A) c (Q : res A -> idtable -> Prop) : (forall t, interns t0 t -> Q r t) -> doesQ (PRet r) c Q c.
  Proof.
    intros HQ h w x Hp Hi. exists r, w, []. cbn [exec]. split; [reflexivity|]. split; [constructor|]. split; [reflexivity|].
    rewrite app_nil_r. auto.
  Qed.
  Lemma does_ret {A} (r : res A) c : does (PRet r) c r c.
  Proof. apply doesQ_ret. reflexivity. Qed.

  Lemma doesQ_then {A B} (p : prog A) (k : res A -> prog B) c r c1 Q c2 : does p c r c1 -> doesQ (k r) c1 Q c2 -> doesQ (pthen p k) c Q c2.
  Proof.
    intros H1 H2 h w x Hp Hi. destruct (H1 h w x Hp Hi) as (r1 & w1 & lg1 & E1 & G1 & O1 & P1 & ->).
    assert (interns t0 (sh_idt (w_sh w1))) as Hi1 by (eapply interns_trans; [exact Hi|eapply exec_idt; [eapply pre_wok; exact Hp|exact E1]]).
    destruct (H2 _ w1 x P1 Hi1) as (r2 & w2 & lg2 & E2 & G2 & O2 & P2 & Q2).
    exists r2, w2, (lg1 ++ lg2). rewrite exec_pthen, E1, E2. split; [reflexivity|]. split; [now apply gentle_app|].
    split; [rewrite opened_app, closed_app; congruence|]. rewrite app_assoc. auto.
  Qed.

  Lemma doesQ_bind {A B} (p : prog A) (k : A -> prog B) c a c1 Q c2 : does p c (Ok a) c1 -> doesQ (k a) c1 Q c2 -> doesQ (pbind p k) c Q c2.
  Proof. intros H1 H2. unfold pbind. eapply doesQ_then; [exact H1|exact H2]. Qed.
  Lemma does_bind {A B} (p : prog A) (k : A -> prog B) c a c1 r c2 : does p c (Ok a) c1 -> does (k a) c1 r c2 -> does (pbind p k) c r c2.
  Proof. apply doesQ_bind. Qed.
  Lemma does_bind_err {A B} (p : prog A) (k : A -> prog B) c e c1 : does p c (Err e) c1 -> does (pbind p k) c (Err e) c1.
  Proof. intros H. unfold pbind. eapply doesQ_then; [exact H|]. apply does_ret. Qed.
  Lemma does_bind_panic {A B} (p : prog A) (k : A -> prog B) c c1 : does p c Panic c1 -> does (pbind p k) c Panic c1.
  Proof. intros H. unfold pbind. eapply doesQ_then; [exact H|]. apply does_ret. Qed.

  Lemma doesQ_conseq {A} (p : prog A) c (Q Q' : res A -> idtable -> Prop) c1 :
    (forall r t, interns t0 t -> Q r t -> Q' r t) -> doesQ p c Q c1 -> doesQ p c Q' c1.
  Proof.
    intros HQ H h w x Hp Hi. destruct (H h w x Hp Hi) as (r1 & w1 & lg1 & E1 & G1 & O1 & P1 & Q1).
    exists r1, w1, lg1. do 4 (split; [assumption|]). apply HQ; [|exact Q1].
    eapply interns_trans; [exact Hi|]. eapply exec_idt; [eapply pre_wok; exact Hp|exact E1].
  Qed.

  Lemma does_name i c : known_id t0 i -> does (pName i) c (Ok (idString t0 i)) c.
  Proof.
    intros Hk h w x Hp Hi. unfold pName. cbn [exec pret]. rewrite (proj1 (name_stays _ _ i t0_ok Hi Hk)).
    eexists _, w, []. split; [reflexivity|]. split; [constructor|]. split; [reflexivity|]. rewrite app_nil_r. auto.
  Qed.
  Lemma doesQ_name {B} i (k : bytes -> prog B) c Q c2 : known_id t0 i -> doesQ (k (idString t0 i)) c Q c2 -> doesQ (pbind (pName i) k) c Q c2.
  Proof. intros Hk. apply doesQ_bind. now apply does_name. Qed.
  Lemma does_bret {A B} (a : A) (k : A -> prog B) c Q c2 : doesQ (k a) c Q c2 -> doesQ (pbind (PRet (Ok a)) k) c Q c2.
  Proof. intros H. exact H. Qed.

  (** Structs that do not fit. *)
  Lemma does_open ti kc c : (forall h w x t, sys h w x t -> can_open h w x t ti kc) -> forall h w x, pre h w x c ->
    exists i w' lg, exec w x (openTyped ti) = (Ok i, w', lg) /\ gentle_log x lg /\ opened x lg = closed x lg /\ pre (h ++ lg) w' x c.
  Proof.
    intros Ho h w x (t & S & Hh). destruct (exec_open HX HG h w x t ti kc (Ho _ _ _ _ S)) as (i & tb & w1 & lg & E1 & G1 & O1 & C1 & A & _).
    exists i, w1, lg. split; [exact E1|]. split; [exact G1|]. split; [congruence|]. exists t. split; [|exact Hh].
    eapply sys_ext; [exact S|exact E1|exact G1|congruence|exact (oa_view _ _ _ _ _ _ _ _ A)|reflexivity].
  Qed.

  Lemma select_panics {S} ti kc g mx (fn : S -> nat -> row -> prog (S * option error)) s c :
    (forall h w x t, sys h w x t -> can_open h w x t ti kc) -> structToRow ti (Some g) = Panic ->
    does (typedTableSelect ti (Some g) mx fn s) c Panic c.
  Proof.
    intros Ho Hs h w x Hp Hi. destruct (does_open ti kc c Ho h w x Hp) as (i & w1 & lg & E1 & G1 & O1 & P1).
    exists Panic, w1, lg. unfold typedTableSelect. rewrite exec_pthen, exec_pbind, E1, Hs. unfold pbind. cbn [pthen exec ppanic].
    rewrite !app_nil_r. auto.
  Qed.
  Lemma insert_panics ti kc g c : (forall h w x t, sys h w x t -> can_open h w x t ti kc) -> structToRow ti (Some g) = Panic ->
    does (TypedTableInsert ti [Some g]) c Panic c.
  Proof.
    intros Ho Hs h w x Hp Hi. destruct (does_open ti kc c Ho h w x Hp) as (i & w1 & lg & E1 & G1 & O1 & P1).
    exists Panic, w1, lg. unfold TypedTableInsert. rewrite exec_pbind, E1. cbn [structsToRows]. rewrite Hs. unfold pbind. cbn [rbind pthen exec ppanic].
    rewrite !app_nil_r. auto.
  Qed.
  Lemma lookup_panics ti kc g c : (forall h w x t, sys h w x t -> can_open h w x t ti kc) -> structToRow ti (Some g) = Panic ->
    does (TypedTableLookup ti g) c Panic c.
  Proof. intros Ho Hs. unfold TypedTableLookup. apply does_bind_panic. eapply select_panics; eassumption. Qed.
  Lemma delete_panics {S} ti kc g mx (fn : S -> row -> prog (S * (bool + error))) s c :
    (forall h w x t, sys h w x t -> can_open h w x t ti kc) -> structToRow ti (Some g) = Panic ->
    does (TypedTableDelete ti (Some g) mx fn s) c Panic c.
  Proof. intros Ho Hs. unfold TypedTableDelete. eapply select_panics; eassumption. Qed.
End Sys.
