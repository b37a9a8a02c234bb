(** Lookup, select, insert, update and delete on tables of structs. *)

From Verif Require Import ModelTyped SpecTyped LemmasBase LemmasKey LemmasValue LemmasTree LemmasStore LemmasWorld
  LemmasHistory LemmasSerial LemmasTable LemmasContents LemmasTableFacts LemmasTableCalls LemmasTableTypes LemmasRows LemmasTyped
  LemmasExec.

Ltac cnt := unfold opened, closed, count_calls; cbn; rewrite ?Nat.eqb_refl; reflexivity.

Section Select.
  Context {X : FloatLib} {L : CaseLib} {G : GobLib}.
  Context (HX : FloatLib_ok X) (HG : GobLib_ok G).

  (** Opening a table of structs. *)
  Definition openCall (ti : typedinfo) : txcall := COpenTable (ti_tid ti) (ti_tn ti) (ti_cols ti) (ti_types ti) (ti_primary ti).

  (** The table was opened. *)
  Record opened_at (h : history) (w : world) (x : nat) (t : tree) (ti : typedinfo) (kc : list (nat * bool)) (i : nat) (tb : table) : Prop := {
    oa_tid : tb_tid tb = ti_tid ti;
    oa_types : tt_types (tb_tt tb) = ti_types ti;
    oa_orderly : orderly (tb_tid tb) h w;
    oa_view : view w x = Some t;
    oa_table : nth_error (tables_of w x) i = Some tb;
    oa_keyed : keyed tb kc
  }.

  Lemma nth_error_last {A} (l : list A) a : nth_error (l ++ [a]) (length l) = Some a.
  Proof. rewrite nth_error_app2, Nat.sub_diag by lia. reflexivity. Qed.

  Lemma exec_open h w x t ti kc : can_open h w x t ti kc ->
    exists i tb w1 lg, exec w x (openTyped ti) = (Ok i, w1, lg) /\ gentle_log x lg /\ opened x lg = 0%nat /\ closed x lg = 0%nat /\
      opened_at (h ++ lg) w1 x t ti kc i tb /\ w1 = snd (step w (Call x (openCall ti))).
  Proof.
    intros [C1 C2 C3 C4 C5 C6]. unfold openTyped. rewrite exec_pbind. unfold call. cbn [exec]. fold (openCall ti) in C4 |- *.
    destruct (step w (Call x (openCall ti))) as [out w1] eqn:E. cbn [fst] in C4. subst out.
    destruct (open_sound HX HG h w x t _ _ _ _ _ w1 (proj1 C1) (proj1 (proj2 C1)) C2 C3 E) as (V1 & _ & ty & (M1 & M2 & M3 & M4) & V2).
    cbn [exec pret fst snd]. unfold openCall. rewrite made_table, V2, app_length. cbn [length]. fold (openCall ti).
    replace (pred (length (tables_of w x) + 1)) with (length (tables_of w x)) by lia.
    assert (gentle x (Call x (openCall ti))) as Gn by (cbn; auto).
    exists (length (tables_of w x)), {| tb_tid := ti_tid ti; tb_tt := ty |}. do 2 eexists. split; [reflexivity|]. split; [apply gentle_one; exact Gn|]. split; [cnt|]. split; [cnt|].
    split; [|reflexivity]. constructor; cbn [tb_tid tb_tt].
    - reflexivity.
    - exact M3.
    - eapply orderly_ext; [exact C1|apply run_one; exact E|apply gentle_one; exact Gn].
    - exact V1.
    - rewrite V2. apply nth_error_last.
    - split; [exact C6|cbn [tb_tt]; congruence].
  Qed.

  (** The rows still to come are there, in ascending order. *)
  Definition still_there (tid : Z) (kc : list (nat * bool)) (t : tree) (l : list row) : Prop :=
    Forall (fun r => In r (rows_in t tid)) l /\ StronglySorted (fun r1 r2 => key_order kc r1 r2 = Lt) l.

  Lemma sorted_filter {A} (R : A -> A -> Prop) (f : A -> bool) l : StronglySorted R l -> StronglySorted R (filter f l).
  Proof.
    induction 1 as [|a l H IH HF]; cbn [filter]; [constructor|]. destruct (f a); [|exact IH]. constructor; [exact IH|].
    apply Forall_forall. intros y Hy. apply filter_In in Hy as [Hy _]. exact (proj1 (Forall_forall _ _) HF y Hy).
  Qed.

  Lemma exec_select {S} h w x t ti kc (mnS mxS : option gostruct) (mn mx : option row) fn (s : S)
      (B : idtable -> tree -> S -> row -> res (S * option error) -> idtable -> tree -> Prop) :
    can_open h w x t ti kc ->
    structToRow ti mnS = Ok mn -> structToRow ti mxS = Ok mx -> bound_wf mn -> bound_wf mx ->
    (forall r, mn = Some r -> length r = length (ti_types ti)) -> (forall r, mx = Some r -> length r = length (ti_types ti)) ->
    (forall i j tb items h w t n it s, at_row x i j tb items h w t (Datatypes.S n) ->
      tb_tid tb = ti_tid ti -> tt_types (tb_tt tb) = ti_types ti -> keyed tb kc -> nth_error items n = Some it ->
      still_there (ti_tid ti) kc t (map it_row (skipn n items)) ->
      exists r w' lg t', exec w x (fn s j (it_row it)) = (r, w', lg) /\ gentle_log x lg /\ opened x lg = 0%nat /\ closed x lg = 0%nat /\
        at_row x i j tb items (h ++ lg) w' t' (Datatypes.S n) /\ B (sh_idt (w_sh w)) t s (it_row it) r (sh_idt (w_sh w')) t' /\
        (match r with Ok (_, None) => still_there (ti_tid ti) kc t' (map it_row (skipn (Datatypes.S n) items)) | _ => True end)) ->
    exists r w' lg t', exec w x (typedTableSelect ti mnS mxS fn s) = (r, w', lg) /\ gentle_log x lg /\ opened x lg = closed x lg /\
      view w' x = Some t' /\
      loops B (idt_open w x ti) t s (filter (in_range kc mn mx) (rows_in t (ti_tid ti)))
        r (sh_idt (w_sh w')) t'.
  Proof.
    intros CO Emn Emx Wmn Wmx Lmn Lmx Hbody. unfold typedTableSelect. rewrite exec_pthen, exec_pbind.
    destruct (exec_open _ _ _ _ _ _ CO) as (i & tb & w1 & lg1 & E1 & G1 & O1 & C1 & [A1 A2 A3 A4 A5 A6] & Ew1).
    rewrite E1, Emn, Emx. unfold pbind at 1 2. cbn [pthen]. unfold call at 1. cbn [exec].
    assert (forall b, (forall r, b = Some r -> length r = length (ti_types ti)) -> bound_fits kc b) as Hfit.
    { intros b Hb r -> c d Hc. specialize (Hb r eq_refl).
      pose proof (table_known' HX HG _ _ _ _ tb kc A3 A4 (nth_error_In _ _ A5) A6) as [_ _ _ _ _ D].
      pose proof (proj1 (Forall_forall _ _) (d_cols _ _ _ _ _ _ _ _ _ D) _ Hc) as Hlt. cbn [fst] in Hlt. rewrite A2, <- Hb in Hlt.
      split; [exact Hlt|]. exact (proj1 (Forall_forall _ _) (proj1 A6) _ Hc). }
    pose proof (Hfit mn Lmn) as Fmn. pose proof (Hfit mx Lmx) as Fmx.
    pose proof (scan_succeeds HX HG (h ++ lg1) w1 x t i tb kc None mn mx None A3 A4 A5 A6 Wmn Wmx Fmn Fmx ltac:(discriminate)) as Es.
    destruct (step w1 (Call x (CRows i None mn mx None))) as [out w2] eqn:E2. cbn [fst] in Es. subst out.
    destruct (scan_exact HX HG _ _ _ _ _ _ _ _ _ _ _ _ A3 A4 A5 A6 Wmn Wmx E2) as (V2 & rs & R1 & R2 & R3 & R4 & R5).
    pose proof (ran_wok _ _ (proj1 A3)) as K1.
    destruct (rows_live w1 x t i None mn mx None w2 K1 A4 E2) as (T2 & Rf2 & I2).
    rewrite (made_rows _ _ _ _ _ _ _ _ _ R1). cbn [fst snd exec pret]. rewrite exec_pthen.
    assert (gentle x (Call x (CRows i None mn mx None))) as Gr by (cbn; auto).
    set (h2 := (h ++ lg1) ++ [(Call x (CRows i None mn mx None), ODone)]).
    assert (at_row x i (length (rowsets_of w1 x)) tb (rs_items rs) h2 w2 t 0) as HA.
    { constructor.
      - eapply orderly_ext; [exact A3|apply run_one; exact E2|apply gentle_one; exact Gr].
      - exact V2.
      - now rewrite T2.
      - rewrite R1, nth_error_last. destruct rs as [r1 r2 r3 r4]. cbn in *. now subst. }
    assert (map it_row (rs_items rs) = filter (in_range kc mn mx) (rows_in t (ti_tid ti))) as Ei.
    { rewrite R5, A1. apply filter_ext. intros r. unfold wanted. now rewrite andb_true_r. }
    assert (still_there (ti_tid ti) kc t (map it_row (skipn 0 (rs_items rs)))) as HQ.
    { cbn [skipn]. rewrite Ei. split.
      - apply Forall_forall. intros r Hr. now apply filter_In in Hr as [Hr _].
      - apply sorted_filter. rewrite <- A1. eapply rows_ordered; try eassumption. eapply nth_error_In; exact A5. }
    destruct (exec_loop x i (length (rowsets_of w1 x)) tb (rs_items rs) (still_there (ti_tid ti) kc) fn B) with
      (fuel := Datatypes.S (length (rs_items rs))) (n := 0%nat) (h := h2) (w := w2) (t := t) (s := s)
      as (r3 & w3 & lg3 & t3 & n3 & E3 & G3 & O3 & C3 & HA3 & L3); try assumption; try lia.
    { intros h' w' t' n' it' s' HA' Hi' HQ'. exact (Hbody _ _ _ _ _ _ _ _ _ s' HA' A1 A2 A6 Hi' HQ'). }
    rewrite E3, exec_pthen. unfold call. cbn [exec].
    pose proof (ran_wok _ _ (proj1 (ar_orderly _ _ _ _ _ _ _ _ _ HA3))) as K3.
    destruct (close_live w3 x t3 _ _ n3 K3 (ar_view _ _ _ _ _ _ _ _ _ HA3) (ar_rows _ _ _ _ _ _ _ _ _ HA3) eq_refl)
      as (w4 & E4 & V4 & T4 & Rf4 & I4).
    rewrite E4. cbn [exec pret]. do 4 eexists. split; [reflexivity|].
    assert (gentle x (Call x (CClose (length (rowsets_of w1 x))))) as Gc by (cbn; auto).
    split; [|split; [|split]].
    - repeat (first [apply gentle_app|apply gentle_one]; try assumption); try constructor; try assumption; try constructor.
    - repeat rewrite ?opened_app, ?closed_app, ?O1, ?O3, ?C1, ?C3. cnt.
    - exact V4.
    - unfold idt_open. fold (openCall ti). rewrite I4, <- Ei, <- Ew1, <- I2. exact L3.
  Qed.
End Select.
