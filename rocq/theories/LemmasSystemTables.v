(** Lookups, inserts and deletes in a table that holds a list of things with
    keys. *)

From Verif Require Import ModelEngine SpecEngine LemmasBase LemmasKey LemmasValue LemmasIdent LemmasTree LemmasStore LemmasWorld
  LemmasHistory LemmasSerial LemmasTable LemmasContents LemmasTableFacts LemmasTableCalls LemmasTableTypes LemmasRows LemmasTyped
  LemmasExec LemmasSelect LemmasTypedTable LemmasCatalogue.

Lemma existsb_perm {A} (f : A -> bool) l l' : Permutation l l' -> existsb f l = existsb f l'.
Proof.
  intros P. apply eq_true_iff_eq. rewrite !existsb_exists. split; intros (a & H & E); exists a; split; auto; eapply Permutation_in; try eassumption.
  now apply Permutation_sym.
Qed.
Lemma filter_perm {A} (f : A -> bool) l l' : Permutation l l' -> Permutation (filter f l) (filter f l').
Proof.
  induction 1 as [|a l l' P IH|a b l|l1 l2 l3 P1 IH1 P2 IH2]; cbn [filter].
  - constructor.
  - destruct (f a); [now constructor|exact IH].
  - destruct (f a), (f b); try apply Permutation_refl. apply perm_swap.
  - eapply Permutation_trans; eassumption.
Qed.
Lemma existsb_map {A B} (g : A -> B) (f : B -> bool) l : existsb f (map g l) = existsb (fun a => f (g a)) l.
Proof. induction l; [reflexivity|]. cbn. now rewrite IHl. Qed.
Lemma filter_map_comm {A B} (g : A -> B) (f : B -> bool) l : filter f (map g l) = map g (filter (fun a => f (g a)) l).
Proof. induction l as [|a l IH]; [reflexivity|]. cbn. destruct (f (g a)); cbn; now rewrite IH. Qed.

Section Generic.
  Context {X : FloatLib} {L : CaseLib} {G : GobLib} {F : Float32Lib}.
  Context (HX : FloatLib_ok X) (HG : GobLib_ok G) (HF : Float32Lib_ok F).

  Lemma rows_facts h w x t ti kc : can_open h w x t ti kc ->
    (forall r, In r (rows_in t (ti_tid ti)) -> Forall wf_value r /\ key_fits kc r) /\
    StronglySorted (fun r1 r2 => key_order kc r1 r2 = Lt) (rows_in t (ti_tid ti)) /\ small_cols kc /\
    Forall (fun c => (fst c < length (ti_types ti))%nat) kc.
  Proof.
    intros CO. destruct (exec_open HX HG _ _ _ _ _ _ CO) as (i & tb & w1 & lg1 & _ & _ & _ & _ & [A1 A2 A3 A4 A5 A6] & _).
    pose proof (table_known' HX HG _ _ _ _ tb kc A3 A4 (nth_error_In _ _ A5) A6) as K. rewrite <- A1. split; [|split; [|split]].
    - intros r Hr. eapply MakeKey_wf_fits; eassumption.
    - exact (rows_ordered HX HG _ _ _ _ tb kc A3 A4 (nth_error_In _ _ A5) A6).
    - exact (proj1 A6).
    - rewrite <- A2. exact (d_cols _ _ _ _ _ _ _ _ _ (k_def _ _ _ _ _ _ K)).
  Qed.

  Context (h : history) (w : world) (x : nat) (t : tree) (ti : typedinfo) (kc : list (nat * bool)) (st : stype) (g : gostruct) (m : row).
  Context (CO : can_open h w x t ti kc) (Hg : of_struct st g) (Em : structToRow ti (Some g) = Ok (Some m)).

  Lemma this_bound : bound_for ti st (Some g) (Some m).
  Proof. split; [intros g0 [= <-]; exact Hg|exact Em]. Qed.

  Lemma this_key : Forall wf_value m /\ key_fits kc m.
  Proof.
    destruct (bound_facts _ _ _ _ this_bound) as [W Lm]. split; [exact (W m eq_refl)|]. specialize (Lm m eq_refl).
    destruct (rows_facts _ _ _ _ _ _ CO) as (_ & _ & Sm & Hc). intros c d Hin. rewrite Lm.
    split; [exact (proj1 (Forall_forall _ _) Hc _ Hin)|exact (proj1 (Forall_forall _ _) Sm _ Hin)].
  Qed.

  Lemma range_same r : In r (rows_in t (ti_tid ti)) -> in_range kc (Some m) (Some m) r = true <-> same_key kc m r.
  Proof.
    intros Hin. destruct (rows_facts _ _ _ _ _ _ CO) as (Hr & _ & Sm & _). destruct (Hr r Hin) as [W Fr]. destruct this_key as [Wm Fm].
    now apply in_range_same.
  Qed.

  Lemma at_most_one r1 r2 l : filter (in_range kc (Some m) (Some m)) (rows_in t (ti_tid ti)) <> r1 :: r2 :: l.
  Proof.
    intros Ef. destruct (rows_facts _ _ _ _ _ _ CO) as (Hr & So & Sm & _). destruct this_key as [Wm Fm].
    apply (sorted_filter _ (in_range kc (Some m) (Some m))) in So. rewrite Ef in So.
    assert (forall r', In r' (r1 :: r2 :: l) -> In r' (rows_in t (ti_tid ti)) /\ same_key kc m r') as Hl.
    { intros r' Hin. rewrite <- Ef in Hin. apply filter_In in Hin as [Hin Hf]. split; [exact Hin|]. now apply range_same. }
    apply StronglySorted_inv in So as [_ S]. inversion S as [|? ? S1 _]; subst.
    destruct (Hl r1 (or_introl eq_refl)) as [I1 K1]. destruct (Hl r2 (or_intror (or_introl eq_refl))) as [I2 K2].
    destruct (Hr r1 I1) as [W1 F1]. destruct (Hr r2 I2) as [W2 F2].
    apply same_key_at in K1; try assumption. apply same_key_at in K2; try assumption.
    rewrite (proj2 (key_order_eq kc r1 r2 W1 W2)) in S1; [discriminate|].
    apply same_key_at; try assumption. congruence.
  Qed.

  Context {A : Type} (rowof : A -> row) (eqk : A -> bool) (l : list A).
  Context (P : Permutation (rows_in t (ti_tid ti)) (map rowof l)) (Hk : forall a, In a l -> same_key kc m (rowof a) <-> eqk a = true).

  Lemma in_list a : In a l -> In (rowof a) (rows_in t (ti_tid ti)).
  Proof. intros H. eapply Permutation_in; [apply Permutation_sym; exact P|now apply in_map]. Qed.
  Lemma in_rows r : In r (rows_in t (ti_tid ti)) -> exists a, In a l /\ r = rowof a.
  Proof. intros H. apply (Permutation_in _ P) in H. apply in_map_iff in H as (a & <- & H). eauto. Qed.

  Lemma generic_lookup : exists res w' lg, exec w x (TypedTableLookup ti g) = (res, w', lg) /\
      view w' x = Some t /\ gentle_log x lg /\ opened x lg = closed x lg /\
      match find eqk l with
      | Some a => In a l /\ eqk a = true /\ res = rbind (RowToStruct ti (rowof a) g) (fun g' => Ok (g', None))
      | None => existsb eqk l = false /\ res = Ok (g, Some EOF)
      end.
  Proof.
    destruct (lookup_lemma HX HG h w x t ti kc st g m CO Hg Em) as (res & w' & lg & E & V & G1 & O1 & H).
    exists res, w', lg. do 4 (split; [assumption|]). destruct (find eqk l) as [a|] eqn:Ef.
    - apply find_some in Ef as [Ha Ea]. split; [exact Ha|]. split; [exact Ea|]. destruct H as [(r & Hin & Hs & Hu & ->)|[Hn _]].
      + now rewrite (Hu (rowof a) (in_list a Ha) (proj2 (Hk a Ha) Ea)).
      + exfalso. eapply Hn; [apply in_list; exact Ha|]. now apply Hk.
    - assert (forall a, In a l -> eqk a = false) as Hn by (intros a Ha; exact (find_none _ _ Ef a Ha)). split.
      + apply not_true_iff_false. rewrite existsb_exists. intros (a & Ha & Ea). rewrite (Hn a Ha) in Ea. discriminate.
      + destruct H as [(r & Hin & Hs & Hu & ->)|[_ ->]]; [|reflexivity]. exfalso. apply in_rows in Hin as (a & Ha & ->).
        apply Hk in Hs; [|exact Ha]. rewrite (Hn a Ha) in Hs. discriminate.
  Qed.

  Lemma same_exists : (exists r0, In r0 (rows_in t (ti_tid ti)) /\ same_key kc m r0) <-> existsb eqk l = true.
  Proof.
    rewrite existsb_exists. split.
    - intros (r & Hin & Hs). apply in_rows in Hin as (a & Ha & ->). exists a. split; [exact Ha|]. now apply Hk.
    - intros (a & Ha & Ea). exists (rowof a). split; [now apply in_list|]. now apply Hk.
  Qed.

  Lemma generic_insert : made_for ti st -> exists w' lg t',
      exec w x (TypedTableInsert ti [Some g]) = ((if existsb eqk l then Err ErrDuplicateKey else Ok tt), w', lg) /\
      view w' x = Some t' /\ gentle_log x lg /\ opened x lg = closed x lg /\ only_table (ti_tid ti) t t' /\
      Permutation (rows_in t' (ti_tid ti)) (if existsb eqk l then map rowof l else m :: map rowof l).
  Proof.
    intros Hm. destruct (typed_insert HX HG HF h w x t ti kc st [g] [m] CO Hm) as (res & w' & lg & t' & have' & E & V & G1 & O1 & Ot & In1 & P1);
      [repeat constructor; exact (proj1 Hg) || exact (proj2 Hg)|repeat constructor; exact Em|].
    exists w', lg, t'. cbn [map] in E. inversion In1 as [|? ? ? ? ? Hn In2|? ? ? Hd]; subst.
    - inversion In2; subst. destruct (existsb eqk l) eqn:Ex.
      + exfalso. apply Hn. now apply same_exists.
      + do 5 (split; [assumption|]). eapply Permutation_trans; [exact P1|]. now constructor.
    - apply same_exists in Hd. rewrite Hd. do 5 (split; [assumption|]). eapply Permutation_trans; eassumption.
  Qed.

  Lemma generic_delete : exists w' lg t',
      exec w x (TypedTableDelete ti (Some g) (Some g) (fun (_ : bool) _ => pret (true, inl true)) false) = (Ok (existsb eqk l, None), w', lg) /\
      view w' x = Some t' /\ gentle_log x lg /\ opened x lg = closed x lg /\ only_table (ti_tid ti) t t' /\
      Permutation (rows_in t' (ti_tid ti)) (map rowof (filter (fun a => negb (eqk a)) l)).
  Proof.
    destruct (delete_lemma HX HG h w x t ti kc st (Some g) (Some g) (Some m) (Some m) (fun (_ : bool) _ => pret (true, inl true)) false
      CO this_bound this_bound) as (w' & lg & t' & E & V & G1 & O1 & Ot & P1); [intros; constructor|].
    set (rows := rows_in t (ti_tid ti)) in *.
    assert (forall r, In r rows -> in_range kc (Some m) (Some m) r = true <-> same_key kc m r) as Hs by exact range_same.
    assert (Permutation (filter (fun r => negb (in_range kc (Some m) (Some m) r)) rows) (map rowof (filter (fun a => negb (eqk a)) l))) as Pf.
    { eapply Permutation_trans; [apply filter_perm; exact P|]. rewrite filter_map_comm. apply Permutation_map.
      erewrite filter_ext_in; [apply Permutation_refl|]. intros a Ha. cbn beta. f_equal. apply eq_true_iff_eq.
      rewrite Hs by now apply in_list. now apply Hk. }
    destruct (filter (in_range kc (Some m) (Some m)) rows) as [|r1 [|r2 l2]] eqn:Ef.
    - cbn [visit_delete fst snd app] in *. exists w', lg, t'.
      assert (existsb eqk l = false) as Ex.
      { apply not_true_iff_false. intros Ex. apply same_exists in Ex as (r & Hin & Hsk). apply Hs in Hsk; [|exact Hin].
        assert (In r []) as []. rewrite <- Ef. apply filter_In. auto. }
      rewrite Ex. do 5 (split; [assumption|]). eapply Permutation_trans; [apply Permutation_sym; exact P1|].
      eapply Permutation_trans; [|exact Pf]. clear - Ef. induction rows as [|r rs IH]; [constructor|]. cbn [filter] in *.
      destruct (in_range kc (Some m) (Some m) r); [discriminate|]. cbn. constructor. now apply IH.
    - cbn [visit_delete qrun pret fst snd app] in *. exists w', lg, t'.
      assert (In r1 rows /\ in_range kc (Some m) (Some m) r1 = true) as [Hin Hr].
      { apply filter_In. rewrite Ef. now left. }
      assert (existsb eqk l = true) as Ex by (apply same_exists; exists r1; split; [exact Hin|now apply Hs]).
      rewrite Ex. do 5 (split; [assumption|]). eapply Permutation_trans; [|exact Pf].
      pose proof (filter_perm (fun r => negb (in_range kc (Some m) (Some m) r)) _ _ P1) as P2. cbn [filter] in P2. rewrite Hr in P2. cbn [negb] in P2.
      eapply Permutation_trans; [|apply Permutation_sym; exact P2].
      assert (forall r, In r (rows_in t' (ti_tid ti)) -> in_range kc (Some m) (Some m) r = false) as Hno.
      { intros r Hr'. apply not_true_iff_false. intros Ht.
        pose proof (filter_perm (in_range kc (Some m) (Some m)) _ _ P1) as P3. rewrite Ef in P3. cbn [filter] in P3. rewrite Hr in P3.
        apply Permutation_cons_inv, Permutation_nil in P3. assert (In r []) as []. rewrite <- P3. apply filter_In. auto. }
      clear - Hno. induction (rows_in t' (ti_tid ti)) as [|r rs IH]; [constructor|]. cbn [filter]. rewrite (Hno r (or_introl eq_refl)). cbn [negb].
      constructor. apply IH. intros r' Hr'. apply Hno. now right.
    - exfalso. eapply at_most_one. exact Ef.
  Qed.
End Generic.
