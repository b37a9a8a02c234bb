(** What the calls on tables do, in all histories. *)

From Verif Require Import ModelStore SpecTable LemmasBase LemmasKey LemmasValue LemmasTree LemmasStore LemmasWorld
  LemmasHistory LemmasSerial LemmasTable LemmasContents.

Lemma keys_of_inj kc1 kc2 : small_cols kc1 -> small_cols kc2 -> keys_of kc1 = keys_of kc2 -> kc1 = kc2.
Proof.
  revert kc2. induction kc1 as [|[c d] kc1 IH]; intros [|[c' d'] kc2] S1 S2 E; try discriminate; [reflexivity|].
  inversion S1 as [|a l A1 A2]; inversion S2 as [|a' l' B1 B2]; subst. simpl in *. injection E as E1 E2.
  apply column_key_inj_lemma in E1 as [E1 ->]; [|lia|lia]. apply Nat2Z.inj in E1. subst c'. f_equal. now apply IH.
Qed.

Lemma small_In kc : small_cols kc -> forall c d, In (c, d) kc -> Z.of_nat c < 2 ^ 31 - 1.
Proof. intros S c d Hi. exact (proj1 (Forall_forall _ _) S (c, d) Hi). Qed.

Lemma MakeKey_Some_fits kc r k : small_cols kc -> MakeKey (keys_of kc) r = Some k -> key_fits kc r.
Proof.
  intros S E c d Hi. pose proof (small_In kc S c d Hi) as B. split; [|exact B].
  destruct (Nat.ltb_spec c (length r)); [assumption|exfalso].
  rewrite MakeKey_missing in E; [discriminate|exact (small_In kc S)|]. exists c, d. split; [exact Hi|lia].
Qed.

Lemma MakeKey_compare kc r1 r2 k1 k2 : small_cols kc -> Forall wf_value r1 -> Forall wf_value r2 ->
  MakeKey (keys_of kc) r1 = Some k1 -> MakeKey (keys_of kc) r2 = Some k2 ->
  bytes_compare k1 k2 = key_order kc r1 r2.
Proof.
  intros S W1 W2 E1 E2.
  destruct (key_order_lemma kc r1 r2 (MakeKey_Some_fits _ _ _ S E1) (MakeKey_Some_fits _ _ _ S E2) W1 W2)
    as (k1' & k2' & F1 & F2 & F3). congruence.
Qed.

Lemma MakeKey_ext kc r1 r2 : small_cols kc -> (forall c d, In (c, d) kc -> nth_error r1 c = nth_error r2 c) ->
  MakeKey (keys_of kc) r1 = MakeKey (keys_of kc) r2.
Proof.
  induction kc as [|[c d] kc IH]; intros S H; [reflexivity|]. inversion S; subst.
  rewrite !MakeKey_cols by assumption. rewrite (H c d (or_introl eq_refl)), IH; [reflexivity|assumption|].
  intros c' d' Hi. apply (H c' d'). now right.
Qed.

Lemma nth_error_firstn_lt {A} m : forall n (l : list A), (n < m)%nat -> nth_error (firstn m l) n = nth_error l n.
Proof. induction m as [|m IH]; intros [|n] [|x l] H; simpl; try lia; try reflexivity. apply IH. lia. Qed.
Lemma nth_error_skipn_add {A} m : forall n (l : list A), nth_error (skipn m l) n = nth_error l (m + n).
Proof.
  induction m as [|m IH]; intros n [|x l]; simpl; try reflexivity; [destruct n; reflexivity|apply IH].
Qed.

Lemma assign_other cols : forall r vals c, Forall (fun c => 0 <= c < zlen r) cols -> ~ In (Z.of_nat c) cols ->
  nth_error (assign r cols vals) c = nth_error r c.
Proof.
  induction cols as [|c0 cols IH]; intros r vals c F N; [reflexivity|]. inversion F as [|a l A1 A2]; subst.
  destruct vals as [|v vals]; [reflexivity|]. cbn [assign].
  assert (length (firstn (Z.to_nat c0) r ++ v :: skipn (S (Z.to_nat c0)) r) = length r) as Hl.
  { unfold zlen in A1. rewrite app_length. cbn [length]. rewrite firstn_length, skipn_length. lia. }
  rewrite IH.
  - assert (c <> Z.to_nat c0) as N0 by (intros ->; apply N; left; lia).
    assert (length (firstn (Z.to_nat c0) r) = Z.to_nat c0) as Hf by (rewrite firstn_length; unfold zlen in A1; lia).
    destruct (Nat.lt_ge_cases c (Z.to_nat c0)).
    + rewrite nth_error_app1 by lia. now rewrite nth_error_firstn_lt by lia.
    + rewrite nth_error_app2 by lia. rewrite Hf.
      destruct (c - Z.to_nat c0)%nat as [|n] eqn:En; [lia|]. cbn [nth_error].
      rewrite nth_error_skipn_add. f_equal. lia.
  - unfold zlen in *. rewrite Hl. exact A2.
  - intros Hi. apply N. now right.
Qed.

Lemma Forall_map_iff {A B} (f : A -> B) (P : B -> Prop) l : Forall P (map f l) <-> Forall (fun a => P (f a)) l.
Proof. rewrite !Forall_forall. split; intros H x Hx; [apply H; now apply in_map|]. apply in_map_iff in Hx as (y & <- & Hy). auto. Qed.

Lemma filter_map_comm {A B} (f : A -> B) (g : B -> bool) l : filter g (map f l) = map f (filter (fun a => g (f a)) l).
Proof. induction l as [|x l IH]; simpl; [reflexivity|]. destruct (g (f x)); simpl; now rewrite IH. Qed.

Lemma filter_ext_In {A} (f g : A -> bool) l : (forall x, In x l -> f x = g x) -> filter f l = filter g l.
Proof.
  induction l as [|x l IH]; intros H; simpl; [reflexivity|].
  rewrite (H x (or_introl eq_refl)), IH by (intros y Hy; apply H; now right). reflexivity.
Qed.

Section Facts.
  Context {X : FloatLib} {L : CaseLib} {G : GobLib}.
  Context (HX : FloatLib_ok X) (HG : GobLib_ok G).

  (** Everything about a handle. *)
  Record known (h : history) (w : world) (x : nat) (t : tree) (tb : table) (kc : list (nat * bool)) : Prop := {
    k_wok : wok w;
    k_sorted : sorted t;
    k_types : types_ok t;
    k_tid : EngineTableId <= tb_tid tb < 2 ^ 32;
    k_rel : toRelationId (tb_tid tb) = tb_tid tb * 2 ^ 32;
    k_def : Def False (tb_tid tb) kc (tt_types (tb_tt tb)) (dropped (tb_tid tb) h) t (tables_of w x) (rowsets_of w x) (refs_of w x)
  }.

  Lemma table_known h w x t tb : orderly (tb_tid tb) h w -> view w x = Some t -> In tb (tables_of w x) ->
    exists kc, keyed tb kc /\ known h w x t tb kc.
  Proof.
    intros (R & HT & HR) Hv Hb. destruct (ran_base h w x t HX HG R HT Hv) as (T & S & B).
    pose proof (proj1 (Forall_forall _ _) B tb Hb) as Ht. simpl in Ht.
    pose proof (ran_inv False (tb_tid tb) h w HX HG ltac:(lia) R HT ltac:(tauto) HR) as [_ K].
    destruct (K x t Hv) as [_ _ (kc & cts & D)]. destruct (d_tbs _ _ _ _ _ _ _ _ _ D tb Hb eq_refl) as [E1 E2]. subst cts.
    exists kc. split; [split; [exact (d_small _ _ _ _ _ _ _ _ _ D)|exact E1]|].
    constructor; try assumption; [exact (ran_wok h w R)|].
    apply toRelationId_small. unfold EngineTableId, is_u32 in *. lia.
  Qed.

  Lemma table_known' h w x t tb kc : orderly (tb_tid tb) h w -> view w x = Some t -> In tb (tables_of w x) ->
    keyed tb kc -> known h w x t tb kc.
  Proof.
    intros O Hv Hb [S E]. destruct (table_known h w x t tb O Hv Hb) as (kc' & [S' E'] & K).
    assert (kc' = kc) as -> by (apply keys_of_inj; [assumption|assumption|congruence]). exact K.
  Qed.

  Lemma k_item h w x t tb kc it : known h w x t tb kc -> In it t -> it_rel it = tb_tid tb * 2 ^ 32 ->
    MakeKey (keys_of kc) (it_row it) = Some (it_key it) /\ length (it_row it) = length (tt_types (tb_tt tb)) /\
    Forall wf_value (it_row it).
  Proof.
    intros K Hi Er. destruct (d_items _ _ _ _ _ _ _ _ _ (k_def _ _ _ _ _ _ K) it Hi Er) as (A & B & C & _). auto.
  Qed.

  (** The rows are in the order of the key. *)
  Lemma rows_ordered h w x t tb kc : orderly (tb_tid tb) h w -> view w x = Some t -> In tb (tables_of w x) ->
    keyed tb kc -> StronglySorted (fun r1 r2 => key_order kc r1 r2 = Lt) (rows_in t (tb_tid tb)).
  Proof.
    intros O Hv Hb Hk. pose proof (table_known' h w x t tb kc O Hv Hb Hk) as K. destruct Hk as [Sm _].
    rewrite rows_in_of_rel. set (R := tb_tid tb * 2 ^ 32) in *.
    assert (forall it, In it (of_rel R t) -> MakeKey (keys_of kc) (it_row it) = Some (it_key it) /\ it_rel it = R /\ Forall wf_value (it_row it)) as Hit.
    { intros it Hi. apply of_rel_In in Hi as [Hi Er]. destruct (k_item _ _ _ _ _ _ it K Hi Er) as (A & _ & B). auto. }
    pose proof (sorted_filter (fun it => it_rel it =? R) t (k_sorted _ _ _ _ _ _ K)) as S. fold (of_rel R t) in S.
    revert Hit S. generalize (of_rel R t). intros l. induction l as [|a l IH]; intros Hit S; [constructor|].
    apply sorted_inv in S as [S H]. simpl. constructor.
    - apply IH; [|exact S]. intros it Hi. apply Hit. now right.
    - apply Forall_map_iff, Forall_forall. intros b Hb'. specialize (H b Hb').
      destruct (Hit a (or_introl eq_refl)) as (A1 & A2 & A3). destruct (Hit b (or_intror Hb')) as (B1 & B2 & B3).
      unfold icmp in H. rewrite A2, B2, Z.compare_refl in H.
      now rewrite (MakeKey_compare kc _ _ _ _ Sm A3 B3 A1 B1) in H.
  Qed.

  Lemma rows_unique h w x t tb kc : orderly (tb_tid tb) h w -> view w x = Some t -> In tb (tables_of w x) ->
    keyed tb kc -> forall a b r1 r2, nth_error (rows_in t (tb_tid tb)) a = Some r1 ->
    nth_error (rows_in t (tb_tid tb)) b = Some r2 -> same_key kc r1 r2 -> a = b.
  Proof.
    intros O Hv Hb Hk. pose proof (rows_ordered h w x t tb kc O Hv Hb Hk) as S.
    pose proof (table_known' h w x t tb kc O Hv Hb Hk) as K.
    assert (Forall (Forall wf_value) (rows_in t (tb_tid tb))) as W.
    { rewrite rows_in_of_rel. apply Forall_map_iff, Forall_forall. intros it Hi. apply of_rel_In in Hi as [Hi Er].
      now destruct (k_item _ _ _ _ _ _ it K Hi Er) as (_ & _ & ?). }
    revert S W. generalize (rows_in t (tb_tid tb)). intros l S W a b r1 r2 Ha Hb' Hs.
    assert (forall a b r1 r2, nth_error l a = Some r1 -> nth_error l b = Some r2 -> same_key kc r1 r2 -> (a < b)%nat -> False) as HL.
    { clear - S W. induction l as [|r l IH]; intros a b r1 r2 Ha Hb Hs Hab; [destruct a; discriminate|].
      apply StronglySorted_inv in S as [S F]. inversion W as [|r0 l0 W1 W2]; subst.
      destruct a as [|a], b as [|b]; try lia.
      - injection Ha as <-. simpl in Hb. apply nth_error_In in Hb.
        pose proof (proj1 (Forall_forall _ _) F r2 Hb) as K. simpl in K.
        pose proof (proj1 (Forall_forall _ _) W2 r2 Hb) as W3.
        rewrite (proj2 (key_order_eq kc r r2 W1 W3)) in K; [discriminate|exact Hs].
      - simpl in *. eapply (IH S W2 a b); eauto. lia. }
    destruct (Nat.lt_trichotomy a b) as [H|[H|H]]; [exfalso; exact (HL a b r1 r2 Ha Hb' Hs H)|exact H|exfalso].
    apply (HL b a r2 r1 Hb' Ha); [|exact H]. intros c d Hi. destruct (Hs c d Hi) as [E|(p & q & E1 & E2 & E3)]; [now left|right].
    exists q, p. split; [exact E2|]. split; [exact E1|]. destruct E3 as [[? ?]|(s & s' & ? & ?)]; [left; auto|right; eauto].
  Qed.

  (** ** Scans *)
  Lemma predicateFunction_holds p ct f v b : predicateFunction p ct = Some f -> f v = Some b -> b = pred_holds p v.
  Proof.
    unfold predicateFunction. destruct (ct_type ct); try discriminate;
    [destruct (p_bool p) as [g|] eqn:Eg|destruct (p_string p) as [g|] eqn:Eg|destruct (p_bytes p) as [g|] eqn:Eg
    |destruct (p_float p) as [g|] eqn:Eg|destruct (p_int p) as [g|] eqn:Eg]; try discriminate;
    intros [= <-]; destruct v; try discriminate; intros [= <-]; simpl; now rewrite Eg.
  Qed.

  Lemma predicateFunction_None p ct : predicateFunction p ct = None <-> ~ has_method p (ct_type ct).
  Proof.
    unfold predicateFunction, has_method. destruct (ct_type ct);
    [|destruct (p_bool p)|destruct (p_string p)|destruct (p_bytes p)|destruct (p_float p)|destruct (p_int p)];
    split; try discriminate; try tauto; try congruence; intros H; exfalso; apply H; discriminate.
  Qed.

  Lemma predicateFunction_applies p ct f v : predicateFunction p ct = Some f -> of_type (ct_type ct) v -> exists b, f v = Some b.
  Proof.
    unfold predicateFunction, of_type. destruct (ct_type ct); try discriminate;
    [destruct (p_bool p)|destruct (p_string p)|destruct (p_bytes p)|destruct (p_float p)|destruct (p_int p)]; try discriminate;
    intros [= <-]; destruct v; try discriminate; try contradiction; eauto.
  Qed.

  Lemma lessItems_key a b : it_rel a = it_rel b ->
    lessItems a b = match bytes_compare (it_key a) (it_key b) with Lt => true | _ => false end.
  Proof. intros E. unfold lessItems. rewrite E, Z.ltb_irrefl, Z.eqb_refl. reflexivity. Qed.

  Lemma bytes_compare_nil_r s : bytes_compare s [] <> Lt.
  Proof. destruct s; discriminate. Qed.

  Lemma in_range_items h w x t tb kc mn mx mnI mxI it :
    known h w x t tb kc -> keyed tb kc -> bound_wf mn -> bound_wf mx ->
    rowToItem (toRelationId (tb_tid tb)) (tt_key (tb_tt tb)) mn = Some mnI ->
    match mx with
    | None => mxI = None
    | Some _ => exists m, rowToItem (toRelationId (tb_tid tb)) (tt_key (tb_tt tb)) mx = Some m /\ mxI = Some m
    end ->
    In it t -> it_rel it = tb_tid tb * 2 ^ 32 ->
    negb (lessItems it mnI) && match mxI with Some m => negb (lessItems m it) | None => true end = in_range kc mn mx (it_row it).
  Proof.
    intros K [Sm Ek] Wn Wx En Ex Hi Er. rewrite Ek, (k_rel _ _ _ _ _ _ K) in *.
    destruct (k_item _ _ _ _ _ _ it K Hi Er) as (A1 & _ & A3).
    unfold in_range. f_equal.
    - unfold rowToItem in En. destruct mn as [mn|].
      + destruct (MakeKey (keys_of kc) mn) as [k|] eqn:Ekk; [|discriminate]. injection En as <-.
        rewrite lessItems_key by exact Er. simpl.
        rewrite (MakeKey_compare kc _ _ _ _ Sm A3 (Wn mn eq_refl) A1 Ekk).
        rewrite <- (MakeKey_compare kc _ _ _ _ Sm A3 (Wn mn eq_refl) A1 Ekk).
        rewrite <- (MakeKey_compare kc _ _ _ _ Sm (Wn mn eq_refl) A3 Ekk A1).
        rewrite (bytes_compare_antisym k (it_key it)). destruct (bytes_compare k (it_key it)); reflexivity.
      + injection En as <-. rewrite lessItems_key by exact Er. simpl.
        pose proof (bytes_compare_nil_r (it_key it)) as N. destruct (bytes_compare (it_key it) []); try reflexivity. congruence.
    - destruct mx as [mx|]; [|now subst mxI]. destruct Ex as (m & Em & ->).
      unfold rowToItem in Em. destruct (MakeKey (keys_of kc) mx) as [k|] eqn:Ekk; [|discriminate]. injection Em as <-.
      rewrite lessItems_key by (symmetry; exact Er). simpl.
      rewrite <- (MakeKey_compare kc _ _ _ _ Sm A3 (Wx mx eq_refl) A1 Ekk).
      rewrite (bytes_compare_antisym (it_key it) k). destruct (bytes_compare (it_key it) k); reflexivity.
  Qed.

  Lemma scan_exact h w x t i tb kc cols mn mx p w' :
    orderly (tb_tid tb) h w -> view w x = Some t -> nth_error (tables_of w x) i = Some tb -> keyed tb kc ->
    bound_wf mn -> bound_wf mx ->
    step w (Call x (CRows i cols mn mx p)) = (ODone, w') ->
    view w' x = Some t /\
    exists rs, rowsets_of w' x = rowsets_of w x ++ [rs] /\ rs_tbl rs = i /\ rs_cols rs = cols /\ rs_next rs = 0 /\
      map it_row (rs_items rs) = filter (wanted kc mn mx p) (rows_in t (tb_tid tb)).
  Proof.
    intros O Hv Hn Hk Wn Wx E. pose proof (nth_error_In _ _ Hn) as Hb.
    pose proof (table_known' h w x t tb kc O Hv Hb Hk) as K.
    destruct (live_step w x t (CRows i cols mn mx p) _ w' (k_wok _ _ _ _ _ _ K) Hv ltac:(discriminate) ltac:(discriminate) E)
      as (v & v' & Es & Hok & A1 & A2 & A3 & A4 & A5 & B1 & B2 & B3 & B4 & B5 & B6).
    simpl in Es. rewrite A2, Hn in Es. unfold vrun in Es.
    destruct (vRows tb mn mx p (v_tree v, v_idt v)) as [r [t1 i1]] eqn:Er.
    rewrite A1 in Er. apply (rows_eff tb mn mx p t _ _ _ _ (k_sorted _ _ _ _ _ _ K)) in Er as (Et1 & Ei1 & Ne & Hr). subst t1.
    destruct r as [items|e|]; try discriminate. destruct (Hr items eq_refl) as (mnI & mxI & pf & H1 & H2 & H3 & H4 & H5).
    injection Es as <-. simpl in B1, B3. split; [exact B1|].
    eexists. split; [rewrite B3, A3; reflexivity|]. do 3 (split; [reflexivity|]). simpl.
    rewrite H4. unfold scanned. rewrite rows_in_of_rel, filter_map_comm. f_equal. unfold of_rel. rewrite filter_filter'.
    apply filter_ext_In. intros it Hi. rewrite (k_rel _ _ _ _ _ _ K).
    destruct (Z.eqb_spec (it_rel it) (tb_tid tb * 2 ^ 32)) as [Eq|_]; simpl; [|now rewrite andb_false_r].
    rewrite andb_assoc, (in_range_items h w x t tb kc mn mx mnI mxI it K Hk Wn Wx H1 H2 Hi Eq).
    unfold wanted. destruct (in_range kc mn mx (it_row it)) eqn:Ein; [|reflexivity]. simpl.
    destruct p as [p|]; simpl in H3.
    2:{ subst pf. reflexivity. }
    destruct H3 as (ct & f & Hct & Hf & ->). simpl.
    pose proof (znth_Some _ _ _ Hct) as Hcol.
    assert (znth (it_row it) (p_column p) = Some (nth (Z.to_nat (p_column p)) (it_row it) VNull)) as Hz.
    { destruct (k_item _ _ _ _ _ _ it K Hi Eq) as (_ & Hl & _). unfold znth, zlen in *.
      destruct (Z.ltb_spec (p_column p) 0); [lia|]. apply nth_error_nth'. lia. }
    rewrite Hz.
    (* the function was applied to the item, without a panic *)
    assert (exists b, f (nth (Z.to_nat (p_column p)) (it_row it) VNull) = Some b) as (b & Hfb).
    { assert (passable (Some (p_column p, f)) it) as (u & b & Eu & Eb); [|rewrite Hz in Eu; injection Eu as <-; eauto].
      apply H5; [exact Hi|now rewrite (k_rel _ _ _ _ _ _ K)|].
      now rewrite (in_range_items h w x t tb kc mn mx mnI mxI it K Hk Wn Wx H1 H2 Hi Eq). }
    rewrite Hfb. now apply (predicateFunction_holds p ct f).
  Qed.
End Facts.
