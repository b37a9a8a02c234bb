(** What insert, update and delete do, in all histories. *)

From Verif Require Import ModelStore SpecTable LemmasBase LemmasKey LemmasValue LemmasTree LemmasStore LemmasWorld
  LemmasHistory LemmasSerial LemmasTable LemmasContents LemmasTableFacts.

Lemma key_same kc r1 r2 k1 k2 : small_cols kc -> Forall wf_value r1 -> Forall wf_value r2 ->
  MakeKey (keys_of kc) r1 = Some k1 -> MakeKey (keys_of kc) r2 = Some k2 -> (k1 = k2 <-> same_key kc r1 r2).
Proof.
  intros Sm W1 W2 E1 E2.
  exact (key_equal_lemma kc r1 r2 k1 k2 (MakeKey_Some_fits _ _ _ Sm E1) (MakeKey_Some_fits _ _ _ Sm E2) W1 W2 E1 E2).
Qed.

Lemma denotes_same kc rr r1 r2 : small_cols kc -> Forall wf_value r1 -> Forall wf_value r2 ->
  denotes kc rr r1 -> denotes kc rr r2 -> same_key kc r1 r2.
Proof.
  unfold denotes. intros Sm W1 W2 E1 E2.
  exact (proj1 (key_equal_lemma kc r1 r2 _ _ (MakeKey_Some_fits _ _ _ Sm E1) (MakeKey_Some_fits _ _ _ Sm E2) W1 W2 E1 E2) eq_refl).
Qed.

Lemma assigns_updated kc cols : small_cols kc -> (ColumnKeyUpdated (keys_of kc) cols = true <-> assigns_key kc cols).
Proof. intros Sm. apply ColumnKeyUpdated_spec. exact (small_In kc Sm). Qed.

Section Calls.
  Context {X : FloatLib} {L : CaseLib} {G : GobLib}.
  Context (HX : FloatLib_ok X) (HG : GobLib_ok G).

  Lemma convertLoop_no_panic cts : forall r, Forall (fun ct => ct_type ct <> UnknownType) cts -> convertRowLoop cts r <> Panic.
  Proof.
    induction cts as [|ct cts IH]; intros [|v r] F; simpl; try discriminate. inversion F as [|? ? F1 F2]; subst.
    pose proof (ConvertValue_no_panic ct v F1) as N.
    destruct (ConvertValue ct v) as [v'|e|]; simpl; [|discriminate|contradiction].
    specialize (IH r F2). destruct (convertRowLoop cts r); simpl; [discriminate|discriminate|contradiction].
  Qed.

  Lemma convert_no_panic cts r : Forall (fun ct => ct_type ct <> UnknownType) cts -> ConvertRow cts r <> Panic.
  Proof.
    intros F. unfold ConvertRow. destruct (_ <? _); [discriminate|]. now apply convertLoop_no_panic.
  Qed.

  Lemma only_rel tid t t' : is_u32 tid -> (forall rel, rel <> tid * 2 ^ 32 -> of_rel rel t' = of_rel rel t) -> only_table tid t t'.
  Proof.
    intros _ H tid' H0 N. rewrite !rows_in_of_rel. f_equal. apply H. lia.
  Qed.

  Lemma k_u32 h w x t tb kc : known h w x t tb kc -> is_u32 (tb_tid tb).
  Proof. intros K. pose proof (k_tid _ _ _ _ _ _ K) as H. unfold EngineTableId, is_u32 in *. lia. Qed.

  Lemma of_rel_all rel (l : list item) : Forall (fun it => it_rel it = rel) l -> of_rel rel l = l.
  Proof.
    unfold of_rel. induction 1 as [|it l H F IH]; simpl; [reflexivity|]. rewrite H, Z.eqb_refl. now f_equal.
  Qed.
  Lemma of_rel_app rel (l1 l2 : list item) : of_rel rel (l1 ++ l2) = of_rel rel l1 ++ of_rel rel l2.
  Proof. unfold of_rel. apply filter_app. Qed.

  Lemma added_rows h w x t tb kc rs its t' : known h w x t tb kc -> keyed tb kc ->
    Forall2 (makes tb) rs its -> added t its t' ->
    Forall2 (fun r n => ConvertRow (tt_types (tb_tt tb)) r = Ok n) rs (map it_row its) /\
    Permutation (rows_in t' (tb_tid tb)) (map it_row its ++ rows_in t (tb_tid tb)) /\
    only_table (tb_tid tb) t t'.
  Proof.
    intros K [Sm Ek] F A. assert (Forall (fun it => it_rel it = tb_tid tb * 2 ^ 32) its) as Fr.
    { clear A. induction F as [|r it rs its (M1 & M2 & M3) F IH]; constructor; [|exact IH]. rewrite M2. exact (k_rel _ _ _ _ _ _ K). }
    split; [|split].
    - clear A Fr. induction F as [|r it rs its (M1 & M2 & M3) F IH]; constructor; assumption.
    - rewrite !rows_in_of_rel, <- map_app. apply Permutation_map.
      rewrite <- (of_rel_all (tb_tid tb * 2 ^ 32) its Fr) at 1. rewrite <- of_rel_app. apply perm_filter. now apply added_perm.
    - apply only_rel; [exact (k_u32 _ _ _ _ _ _ K)|]. intros rel N. apply (added_other t its t' rel A).
      eapply Forall_impl; [|exact Fr]. simpl. congruence.
  Qed.

  Lemma has_same_key h w x t tb kc r n it : known h w x t tb kc -> keyed tb kc -> Forall wf_value r ->
    makes tb r it -> it_row it = n ->
    (t_has t it = true <-> exists r0, In r0 (rows_in t (tb_tid tb)) /\ same_key kc n r0).
  Proof.
    intros K [Sm Ek] Wr (M1 & M2 & M3) <-. rewrite Ek in M3.
    destruct (convert_row_good _ _ _ HX (d_sizes _ _ _ _ _ _ _ _ _ (k_def _ _ _ _ _ _ K)) Wr M1) as (_ & Wn & _).
    rewrite (k_rel _ _ _ _ _ _ K) in M2. rewrite t_has_true. split.
    - intros (y & Hy & Ey). apply icmp_eq in Ey as [E1 E2]. rewrite M2 in E1.
      destruct (k_item _ _ _ _ _ _ y K Hy E1) as (A1 & _ & A3). exists (it_row y). split.
      + rewrite rows_in_of_rel. apply in_map, of_rel_In. auto.
      + refine (proj1 (key_same kc (it_row it) (it_row y) _ _ Sm Wn A3 M3 A1) _).
        congruence.
    - intros (r0 & Hr0 & Hs). rewrite rows_in_of_rel in Hr0. apply in_map_iff in Hr0 as (y & <- & Hy).
      apply of_rel_In in Hy as [Hy E1]. destruct (k_item _ _ _ _ _ _ y K Hy E1) as (A1 & _ & A3).
      exists y. split; [exact Hy|]. apply icmp_eq. split; [congruence|]. symmetry.
      refine (proj2 (key_same kc (it_row it) (it_row y) _ _ Sm Wn A3 M3 A1) _).
      exact Hs.
  Qed.

  Lemma insert_step h w x t i tb kc rs out w' :
    orderly (tb_tid tb) h w -> view w x = Some t -> nth_error (tables_of w x) i = Some tb -> keyed tb kc ->
    step w (Call x (CInsert i rs)) = (out, w') ->
    known h w x t tb kc /\ exists t' r i' i0, vInsertRows tb rs (t, i0) = (r, (t', i')) /\ view w' x = Some t' /\
      out = outcome_of (fun _ => ODone) r /\ tables_of w' x = tables_of w x /\ sorted t'.
  Proof.
    intros O Hv Hn Hk E. pose proof (nth_error_In _ _ Hn) as Hb.
    pose proof (table_known' HX HG h w x t tb kc O Hv Hb Hk) as K. split; [exact K|].
    destruct (live_step w x t (CInsert i rs) _ w' (k_wok _ _ _ _ _ _ K) Hv ltac:(discriminate) ltac:(discriminate) E)
      as (v & v' & Es & Hok & A1 & A2 & A3 & A4 & A5 & B1 & B2 & B3 & B4 & B5 & B6).
    simpl in Es. rewrite A2, Hn in Es. unfold vrun in Es.
    destruct (vInsertRows tb rs (v_tree v, v_idt v)) as [r [t1 i1]] eqn:Er. rewrite A1 in Er.
    assert (sorted t1) as St.
    { pose proof Er as Er'. apply insertRows_eff in Er' as (_ & rs1 & rs2 & its & _ & _ & A & _).
      exact (added_sorted _ _ _ A (k_sorted _ _ _ _ _ _ K)). }
    exists t1, r, i1, (v_idt v). split; [exact Er|].
    destruct r as [[]|e|]; injection Es as <- <-; simpl in *; rewrite ?A2 in B2; auto.
  Qed.

  Lemma insert_exact h w x t i tb kc rs w' :
    orderly (tb_tid tb) h w -> view w x = Some t -> nth_error (tables_of w x) i = Some tb -> keyed tb kc ->
    step w (Call x (CInsert i rs)) = (ODone, w') ->
    exists t' new, view w' x = Some t' /\ tables_of w' x = tables_of w x /\
      Forall2 (fun r n => ConvertRow (tt_types (tb_tt tb)) r = Ok n) rs new /\
      Permutation (rows_in t' (tb_tid tb)) (new ++ rows_in t (tb_tid tb)) /\
      only_table (tb_tid tb) t t'.
  Proof.
    intros O Hv Hn Hk E.
    destruct (insert_step h w x t i tb kc rs _ w' O Hv Hn Hk E) as (K & t' & r & i' & i0 & Er & V & Ho & Ht & _).
    apply insertRows_eff in Er as (-> & rs1 & rs2 & its & -> & F & A & R).
    destruct r as [u|e|]; try discriminate. subst rs2. rewrite app_nil_r.
    destruct (added_rows h w x t tb kc rs1 its t' K Hk F A) as (P1 & P2 & P3).
    exists t', (map it_row its). auto.
  Qed.

  (** A failing insert has inserted the rows before the one it fails on. *)
  Lemma insert_fails h w x t i tb kc rs e w' :
    orderly (tb_tid tb) h w -> view w x = Some t -> nth_error (tables_of w x) i = Some tb -> keyed tb kc ->
    Forall (Forall wf_value) rs ->
    step w (Call x (CInsert i rs)) = (OErr e, w') ->
    exists t' rs1 bad rs2 new, view w' x = Some t' /\ rs = rs1 ++ bad :: rs2 /\
      Forall2 (fun r n => ConvertRow (tt_types (tb_tt tb)) r = Ok n) rs1 new /\
      Permutation (rows_in t' (tb_tid tb)) (new ++ rows_in t (tb_tid tb)) /\
      only_table (tb_tid tb) t t' /\
      (ConvertRow (tt_types (tb_tt tb)) bad = Err e \/
       e = ErrDuplicateKey /\ exists n r0, ConvertRow (tt_types (tb_tt tb)) bad = Ok n /\
         In r0 (new ++ rows_in t (tb_tid tb)) /\ same_key kc n r0).
  Proof.
    intros O Hv Hn Hk W E.
    destruct (insert_step h w x t i tb kc rs _ w' O Hv Hn Hk E) as (K & t' & r & i' & i0 & Er & V & Ho & Ht & St).
    apply insertRows_eff in Er as (-> & rs1 & rs2 & its & -> & F & A & R).
    destruct r as [u|e'|]; try discriminate. injection Ho as <-.
    destruct R as (bad & rs3 & -> & R).
    destruct (added_rows h w x t tb kc rs1 its t' K Hk F A) as (P1 & P2 & P3).
    exists t', rs1, bad, rs3, (map it_row its). do 5 (split; [assumption||reflexivity|]).
    destruct R as [R|(-> & it & M & Hh)]; [now left|right]. split; [reflexivity|].
    exists (it_row it).
    assert (Forall wf_value bad) as Wb. { apply Forall_app in W as [_ W]. now inversion W. }
    pose proof M as (M1 & M2 & M3). destruct Hk as [Sm Ek]. rewrite Ek in M3.
    pose proof (d_sizes _ _ _ _ _ _ _ _ _ (k_def _ _ _ _ _ _ K)) as Hs.
    destruct (convert_row_good _ _ _ HX Hs Wb M1) as (_ & Wn & _).
    apply t_has_true in Hh as (y & Hy & Ey). apply icmp_eq in Ey as [E1 E2].
    assert (MakeKey (keys_of kc) (it_row y) = Some (it_key y) /\ Forall wf_value (it_row y)) as [A1 A3].
    { apply (added_In _ _ _ y A) in Hy as [Hy|Hy].
      - destruct (Forall2_makes _ _ _ _ F Hy) as (r0 & Hr0 & N1 & N2 & N3). rewrite Ek in N3. split; [exact N3|].
        apply Forall_app in W as [W _]. pose proof (proj1 (Forall_forall _ _) W r0 Hr0) as W0.
        now destruct (convert_row_good _ _ _ HX Hs W0 N1) as (_ & ? & _).
      - rewrite M2, (k_rel _ _ _ _ _ _ K) in E1. now destruct (k_item _ _ _ _ _ _ y K Hy E1) as (? & _ & ?). }
    exists (it_row y). split; [exact M1|]. split.
    - apply (Permutation_in _ P2). rewrite rows_in_of_rel. apply in_map, of_rel_In. split; [exact Hy|].
      rewrite E1, M2. exact (k_rel _ _ _ _ _ _ K).
    - refine (proj1 (key_same kc (it_row it) (it_row y) _ _ Sm Wn A3 M3 A1) _).
      congruence.
  Qed.

  Lemma converted_key h w x t tb kc r n : known h w x t tb kc -> keyed tb kc ->
    ConvertRow (tt_types (tb_tt tb)) r = Ok n ->
    exists k, MakeKey (tt_key (tb_tt tb)) n = Some k.
  Proof.
    intros K [Sm Ek] E. rewrite Ek. apply MakeKey_fits. intros c d Hi. split; [|exact (small_In kc Sm c d Hi)].
    apply convert_row_lemma in E as (_ & Hl & _).
    pose proof (proj1 (Forall_forall _ _) (d_cols _ _ _ _ _ _ _ _ _ (k_def _ _ _ _ _ _ K)) (c, d) Hi) as Hc. simpl in Hc. lia.
  Qed.

  Lemma insert_no_panic h w x t i tb kc rs out w' :
    orderly (tb_tid tb) h w -> view w x = Some t -> nth_error (tables_of w x) i = Some tb -> keyed tb kc ->
    Forall (fun ct => ct_type ct <> UnknownType) (tt_types (tb_tt tb)) ->
    step w (Call x (CInsert i rs)) = (out, w') -> out = ODone \/ exists e, out = OErr e.
  Proof.
    intros O Hv Hn Hk HU E.
    destruct (insert_step h w x t i tb kc rs _ w' O Hv Hn Hk E) as (K & t' & r & i' & i0 & Er & V & Ho & Ht & _).
    apply insertRows_eff in Er as (-> & rs1 & rs2 & its & -> & F & A & R).
    destruct r as [u|e|]; subst out; simpl; [auto|eauto|exfalso].
    destruct R as (bad & rs3 & -> & [R|(n & R1 & R2)]).
    - exact (convert_no_panic _ _ HU R).
    - destruct (converted_key h w x t tb kc bad n K Hk R1). congruence.
  Qed.

  Lemma insert_single h w x t i tb kc r :
    orderly (tb_tid tb) h w -> view w x = Some t -> nth_error (tables_of w x) i = Some tb -> keyed tb kc ->
    Forall wf_value r ->
    let out := fst (step w (Call x (CInsert i [r]))) in
    let w' := snd (step w (Call x (CInsert i [r]))) in
    match ConvertRow (tt_types (tb_tt tb)) r with
    | Ok n =>
        (exists r0, In r0 (rows_in t (tb_tid tb)) /\ same_key kc n r0) /\ out = OErr ErrDuplicateKey /\ view w' x = Some t \/
        (~ exists r0, In r0 (rows_in t (tb_tid tb)) /\ same_key kc n r0) /\ out = ODone
    | Err e => out = OErr e /\ view w' x = Some t
    | Panic => out = OPanic /\ view w' x = Some t
    end.
  Proof.
    intros O Hv Hn Hk Wr out w'. subst out w'. destruct (step w (Call x (CInsert i [r]))) as [out w'] eqn:E. cbn [fst snd].
    destruct (insert_step h w x t i tb kc [r] _ w' O Hv Hn Hk E) as (K & t' & r1 & i' & i0 & Er & V & -> & Ht & _).
    cbn [vInsertRows] in Er. unfold vbind, vliftRes, vlift, rowToItem in Er.
    destruct (ConvertRow (tt_types (tb_tt tb)) r) as [n|e|] eqn:Ec.
    2,3: injection Er as <- <- <-; split; [reflexivity|exact V].
    destruct (converted_key h w x t tb kc r n K Hk Ec) as (k & Ek). rewrite Ek in Er.
    unfold vret, vread, vwrite in Er. cbn [fst snd] in Er. set (it := {| it_rel := _; it_key := k; it_row := n |}) in *.
    assert (makes tb r it) as Hm by (split; [exact Ec|split; [reflexivity|exact Ek]]).
    pose proof (has_same_key h w x t tb kc r n it K Hk Wr Hm eq_refl) as Hi.
    destruct (t_has t it).
    - injection Er as <- <- <-. left. split; [now apply Hi|]. split; [reflexivity|exact V].
    - injection Er as <- <- <-. right. split; [|reflexivity]. intros H. apply Hi in H. discriminate.
  Qed.

  (** ** Row references *)
  Lemma current_denotes h w x t j rs i tb kc w' :
    orderly (tb_tid tb) h w -> view w x = Some t -> nth_error (rowsets_of w x) j = Some rs -> rs_tbl rs = i ->
    nth_error (tables_of w x) i = Some tb -> keyed tb kc ->
    step w (Call x (CCurrent j)) = (ODone, w') ->
    view w' x = Some t /\
    exists r rr, nth_error (map it_row (rs_items rs)) (Z.to_nat (rs_next rs - 1)) = Some r /\ 0 < rs_next rs /\
      refs_of w' x = refs_of w x ++ [rr] /\ rr_tbl rr = i /\ denotes kc rr r.
  Proof.
    intros O Hv Hj Hi Hn Hk E. pose proof (nth_error_In _ _ Hn) as Hb.
    pose proof (table_known' HX HG h w x t tb kc O Hv Hb Hk) as K.
    destruct (live_step w x t (CCurrent j) _ w' (k_wok _ _ _ _ _ _ K) Hv ltac:(discriminate) ltac:(discriminate) E)
      as (v & v' & Es & Hok & A1 & A2 & A3 & A4 & A5 & B1 & B2 & B3 & B4 & B5 & B6).
    simpl in Es. rewrite A3, Hj in Es. destruct (Z.leb_spec (rs_next rs) 0) as [|Hp]; [discriminate|].
    destruct (znth (rs_items rs) (rs_next rs - 1)) as [it|] eqn:Ez; [|discriminate]. injection Es as <-.
    simpl in B1, B4. rewrite A1 in B1. split; [exact B1|].
    assert (nth_error (rs_items rs) (Z.to_nat (rs_next rs - 1)) = Some it) as En.
    { unfold znth in Ez. destruct (_ <? 0); [discriminate|exact Ez]. }
    exists (it_row it). eexists. split; [apply map_nth_error; exact En|]. split; [exact Hp|].
    split; [rewrite B4, A4; reflexivity|]. split; [exact Hi|]. unfold denotes. simpl.
    subst i. destruct (d_rows _ _ _ _ _ _ _ _ _ (k_def _ _ _ _ _ _ K) rs tb it (nth_error_In _ _ Hj) Hn eq_refl (nth_error_In _ _ En))
      as (_ & Gd & _). exact Gd.
  Qed.

  (** A reference in a table known: rows it denotes and the item in the tree. *)
  Lemma denoted_item h w x t tb kc rr : known h w x t tb kc -> keyed tb kc ->
    nth_error (tables_of w x) (rr_tbl rr) = Some tb -> In rr (refs_of w x) ->
    forall r, (In r (rows_in t (tb_tid tb)) /\ denotes kc rr r) <->
      exists y, t_get t (keyToItem (toRelationId (tb_tid tb)) (rr_key rr)) = Some y /\ it_row y = r.
  Proof.
    intros K [Sm Ek] Hn Hr r. rewrite (k_rel _ _ _ _ _ _ K). split.
    - intros [Hi Hd]. rewrite rows_in_of_rel in Hi. apply in_map_iff in Hi as (y & <- & Hy).
      apply of_rel_In in Hy as [Hy E1]. destruct (k_item _ _ _ _ _ _ y K Hy E1) as (A1 & _ & A3).
      exists y. split; [|reflexivity]. apply t_get_In; [exact (k_sorted _ _ _ _ _ _ K)|exact Hy|].
      apply icmp_eq. split; [exact E1|]. unfold denotes in Hd. simpl. congruence.
    - intros (y & Hy & <-). apply t_get_Some in Hy as [Hy Ey]. apply icmp_eq in Ey as [E1 E2]. simpl in E1, E2.
      destruct (k_item _ _ _ _ _ _ y K Hy E1) as (A1 & _ & A3). split.
      + rewrite rows_in_of_rel. apply in_map, of_rel_In. auto.
      + unfold denotes. congruence.
  Qed.

  Lemma removed_rows tb t kit y : sorted t -> toRelationId (tb_tid tb) = tb_tid tb * 2 ^ 32 -> is_u32 (tb_tid tb) ->
    it_rel kit = toRelationId (tb_tid tb) -> t_get t kit = Some y ->
    let t' := fst (t_delete t kit) in
    Permutation (rows_in t (tb_tid tb)) (it_row y :: rows_in t' (tb_tid tb)) /\ only_table (tb_tid tb) t t'.
  Proof.
    intros S Er Hu Ek Hg t'. split.
    - destruct (replace_perm t kit y S Hg) as (rest & P1 & _ & P3). fold t' in P3.
      apply t_get_Some in Hg as [_ Ey]. apply icmp_eq in Ey as [Ey _].
      rewrite !rows_in_of_rel. rewrite (perm_filter (fun it => it_rel it =? tb_tid tb * 2 ^ 32) _ _ P1 : Permutation (of_rel _ t) _).
      rewrite (perm_filter (fun it => it_rel it =? tb_tid tb * 2 ^ 32) _ _ P3 : Permutation (of_rel _ t') _).
      simpl. rewrite Ey, Ek, Er, Z.eqb_refl. reflexivity.
    - apply only_rel; [exact Hu|]. intros rel N. apply delete_other. congruence.
  Qed.

  Lemma delete_exact h w x t j rr tb kc :
    orderly (tb_tid tb) h w -> view w x = Some t -> nth_error (refs_of w x) j = Some rr ->
    nth_error (tables_of w x) (rr_tbl rr) = Some tb -> keyed tb kc ->
    let out := fst (step w (Call x (CDelete j))) in
    let w' := snd (step w (Call x (CDelete j))) in
    (forall r, In r (rows_in t (tb_tid tb)) -> denotes kc rr r ->
       out = ODone /\ exists t', view w' x = Some t' /\
         Permutation (rows_in t (tb_tid tb)) (r :: rows_in t' (tb_tid tb)) /\ only_table (tb_tid tb) t t') /\
    ((forall r, In r (rows_in t (tb_tid tb)) -> ~ denotes kc rr r) -> out = OPanic /\ view w' x = Some t).
  Proof.
    intros O Hv Hj Hn Hk out w'. subst out w'. destruct (step w (Call x (CDelete j))) as [out w'] eqn:E. cbn [fst snd].
    pose proof (nth_error_In _ _ Hn) as Hb. pose proof (table_known' HX HG h w x t tb kc O Hv Hb Hk) as K.
    destruct (live_step w x t (CDelete j) _ w' (k_wok _ _ _ _ _ _ K) Hv ltac:(discriminate) ltac:(discriminate) E)
      as (v & v' & Es & Hok & A1 & A2 & A3 & A4 & A5 & B1 & B2 & B3 & B4 & B5 & B6).
    simpl in Es. rewrite A4, Hj, A2, Hn in Es. unfold vrun in Es.
    destruct (vDelete tb (rr_key rr) (v_tree v, v_idt v)) as [r1 [t1 i1]] eqn:Er. rewrite A1 in Er.
    apply delete_eff in Er as (-> & -> & ->).
    pose proof (denoted_item h w x t tb kc rr K Hk Hn (nth_error_In _ _ Hj)) as D.
    set (kit := keyToItem (toRelationId (tb_tid tb)) (rr_key rr)) in *. split.
    - intros r Hi Hd. destruct (proj1 (D r) (conj Hi Hd)) as (y & Hg & <-).
      rewrite (proj2 (t_has_true t kit)) in Es by (exists y; now apply t_get_Some). injection Es as <- <-.
      split; [reflexivity|]. eexists. split; [exact B1|]. simpl.
      apply (removed_rows tb t kit y (k_sorted _ _ _ _ _ _ K) (k_rel _ _ _ _ _ _ K) (k_u32 _ _ _ _ _ _ K) eq_refl Hg).
    - intros H. assert (t_has t kit = false) as Hf.
      { destruct (t_has t kit) eqn:Hh; [|reflexivity]. exfalso. unfold t_has in Hh. destruct (t_get t kit) as [y|] eqn:Hg; [|discriminate].
        destruct (proj2 (D (it_row y)) (ex_intro _ y (conj eq_refl eq_refl))) as [H1 H2]. exact (H _ H1 H2). }
      rewrite Hf in Es. injection Es as <- <-. split; [reflexivity|]. rewrite B1. simpl. now rewrite delete_missing.
  Qed.

  Lemma update_step h w x t j rr tb kc cols vals out w' :
    orderly (tb_tid tb) h w -> view w x = Some t -> nth_error (refs_of w x) j = Some rr ->
    nth_error (tables_of w x) (rr_tbl rr) = Some tb -> keyed tb kc ->
    step w (Call x (CUpdate j cols vals)) = (out, w') ->
    known h w x t tb kc /\ exists t' r i' i0, vUpdate tb (rr_key rr) cols vals (t, i0) = (r, (t', i')) /\ view w' x = Some t' /\
      out = outcome_of (fun _ => ODone) r.
  Proof.
    intros O Hv Hj Hn Hk E.
    pose proof (nth_error_In _ _ Hn) as Hb. pose proof (table_known' HX HG h w x t tb kc O Hv Hb Hk) as K. split; [exact K|].
    destruct (live_step w x t (CUpdate j cols vals) _ w' (k_wok _ _ _ _ _ _ K) Hv ltac:(discriminate) ltac:(discriminate) E)
      as (v & v' & Es & Hok & A1 & A2 & A3 & A4 & A5 & B1 & B2 & B3 & B4 & B5 & B6).
    simpl in Es. rewrite A4, Hj, A2, Hn in Es. unfold vrun in Es.
    destruct (vUpdate tb (rr_key rr) cols vals (v_tree v, v_idt v)) as [r1 [t1 i1]] eqn:Er. rewrite A1 in Er.
    exists t1, r1, i1, (v_idt v). split; [exact Er|].
    destruct r1 as [[]|e|]; injection Es as <- <-; simpl in *; auto.
  Qed.

  (** What a call of Update on a row that is there does. *)
  Definition update_spec (tb : table) (kc : list (nat * bool)) (t : tree) (r : row) (cols : list Z) (vals : list value)
      (out : outcome) (t' : tree) : Prop :=
    exists rest, Permutation (rows_in t (tb_tid tb)) (r :: rest) /\ only_table (tb_tid tb) t t' /\
    if ColumnKeyUpdated (keys_of kc) cols then
      match ConvertRow (tt_types (tb_tt tb)) (assign r cols vals) with
      | Ok n =>
          (~ (exists r0, In r0 rest /\ same_key kc n r0)) /\ out = ODone /\ Permutation (rows_in t' (tb_tid tb)) (n :: rest) \/
          (exists r0, In r0 rest /\ same_key kc n r0) /\ out = OErr ErrDuplicateKey /\ Permutation (rows_in t' (tb_tid tb)) rest
      | Err e => out = OErr e /\ Permutation (rows_in t' (tb_tid tb)) rest
      | Panic => out = OPanic /\ Permutation (rows_in t' (tb_tid tb)) rest
      end
    else out = ODone /\ Permutation (rows_in t' (tb_tid tb)) (assign r cols vals :: rest).

  Lemma update_exact h w x t j rr tb kc cols vals r :
    orderly (tb_tid tb) h w -> view w x = Some t -> nth_error (refs_of w x) j = Some rr ->
    nth_error (tables_of w x) (rr_tbl rr) = Some tb -> keyed tb kc ->
    Forall wf_value vals -> length cols = length vals ->
    Forall (fun c => 0 <= c < zlen (tt_types (tb_tt tb))) cols ->
    In r (rows_in t (tb_tid tb)) -> denotes kc rr r ->
    exists t', view (snd (step w (Call x (CUpdate j cols vals)))) x = Some t' /\
      update_spec tb kc t r cols vals (fst (step w (Call x (CUpdate j cols vals)))) t'.
  Proof.
    intros O Hv Hj Hn Hk Wv Hl Hc Hr Hd. destruct (step w (Call x (CUpdate j cols vals))) as [out w'] eqn:E. cbn [fst snd].
    destruct (update_step h w x t j rr tb kc cols vals out w' O Hv Hj Hn Hk E) as (K & t' & r1 & i' & i0 & Eu & V & ->).
    exists t'. split; [exact V|].
    destruct (proj1 (denoted_item h w x t tb kc rr K Hk Hn (nth_error_In _ _ Hj) r) (conj Hr Hd)) as (y & Hg & <-).
    pose proof (k_sorted _ _ _ _ _ _ K) as S. pose proof (k_rel _ _ _ _ _ _ K) as Rl. pose proof (k_u32 _ _ _ _ _ _ K) as Hu.
    pose proof Hk as [Sm Ek].
    set (kit := keyToItem (toRelationId (tb_tid tb)) (rr_key rr)) in *.
    destruct (t_get_Some _ _ _ Hg) as [Hy Ey]. apply icmp_eq in Ey as [Ey1 Ey2]. simpl in Ey1, Ey2. rewrite Rl in Ey1.
    destruct (k_item _ _ _ _ _ _ y K Hy Ey1) as (Y1 & Y2 & Y3).
    assert (Forall (fun c => 0 <= c < zlen (it_row y)) cols) as Hc' by (unfold zlen in *; rewrite Y2; exact Hc).
    destruct (proj2 (setColumns_iff cols (it_row y) vals Hl) Hc') as (ra & Ha).
    pose proof (setColumns_spec cols (it_row y) vals ra Ha) as (La & Ea & Wa). specialize (Wa Y3 Wv).
    set (td := fst (t_delete t kit)) in *.
    pose proof (removed_rows tb t kit y S Rl Hu eq_refl Hg) as [P1 P2]. cbv zeta in P1, P2. fold td in P1, P2.
    assert (sorted td) as Std by (apply delete_sorted; exact S).
    exists (rows_in td (tb_tid tb)). split; [exact P1|].
    apply (update_eff tb _ _ _ _ _ _ _ _ S) in Eu as (-> & Eu). fold kit in Eu.
    destruct Eu as [(-> & -> & Eu)|(x0 & ra' & _ & Hg' & Ha' & Eu)].
    { exfalso. destruct Eu as [Eu|[Eu|(x0 & Hg' & [Eu|(ra' & Ha' & Eu1 & Eu2)])]].
      - contradiction.
      - unfold t_has in Eu. rewrite Hg in Eu. discriminate.
      - rewrite Hg in Hg'. injection Hg' as <-. congruence.
      - rewrite Hg in Hg'. injection Hg' as <-. assert (ra' = ra) as -> by congruence.
        rewrite Ek in Eu1, Eu2. assert (~ assigns_key kc cols) as N.
        { intros H. apply (assigns_updated kc cols Sm) in H. congruence. }
        rewrite Ea in Eu2. rewrite (MakeKey_ext kc (assign (it_row y) cols vals) (it_row y) Sm) in Eu2; [congruence|].
        intros c d Hi. apply assign_other; [exact Hc'|]. intros H. apply N. exists c, d. auto. }
    rewrite Hg in Hg'. injection Hg' as <-. assert (ra' = ra) as -> by congruence. clear Ha'.
    rewrite Ek in Eu. destruct Eu as [(Eb & Ei)|(Eb & -> & k' & Ek' & ->)]; rewrite Eb.
    - fold td in Ei. cbn [vInsertRows] in Ei. unfold vbind, vliftRes, vlift, rowToItem in Ei. rewrite <- Ea.
      destruct (ConvertRow (tt_types (tb_tt tb)) ra) as [n|e|] eqn:Ec.
      2,3: injection Ei as <- <-; split; [exact P2|]; split; reflexivity.
      destruct (converted_key h w x t tb kc ra n K Hk Ec) as (k & Ekk). rewrite Ekk in Ei.
      unfold vret, vread, vwrite in Ei. cbn [fst snd] in Ei. set (it := {| it_rel := _; it_key := k; it_row := n |}) in *.
      assert (makes tb ra it) as Hm by (split; [exact Ec|split; [reflexivity|exact Ekk]]).
      assert (t_has td it = true <-> exists r0, In r0 (rows_in td (tb_tid tb)) /\ same_key kc n r0) as Hi.
      { assert (forall it0, In it0 td -> In it0 t) as Sub.
        { intros it0 Hi0. apply delete_In in Hi0; [|exact S]. exact (proj1 Hi0). }
        rewrite Ek in Ekk.
        destruct (convert_row_good _ _ _ HX (d_sizes _ _ _ _ _ _ _ _ _ (k_def _ _ _ _ _ _ K)) Wa Ec) as (_ & Wn & _).
        assert (forall z, In z td -> it_rel z = tb_tid tb * 2 ^ 32 -> (k = it_key z <-> same_key kc n (it_row z))) as Q.
        { intros z Hz Ez. destruct (k_item _ _ _ _ _ _ z K (Sub z Hz) Ez) as (Z1 & _ & Z3).
          exact (key_equal_lemma kc n (it_row z) _ _ (MakeKey_Some_fits _ _ _ Sm Ekk) (MakeKey_Some_fits _ _ _ Sm Z1) Wn Z3 Ekk Z1). }
        rewrite t_has_true. split.
        - intros (z & Hz & Ez). apply icmp_eq in Ez as [Ez1 Ez2]. simpl in Ez1, Ez2. rewrite Rl in Ez1.
          exists (it_row z). split; [rewrite rows_in_of_rel; apply in_map, of_rel_In; auto|]. apply Q; auto.
        - intros (r0 & Hr0 & Hs). rewrite rows_in_of_rel in Hr0. apply in_map_iff in Hr0 as (z & <- & Hz).
          apply of_rel_In in Hz as [Hz Ez]. exists z. split; [exact Hz|]. apply icmp_eq. simpl. rewrite Rl.
          split; [exact Ez|]. symmetry. now apply Q. }
      destruct (t_has td it) eqn:Eh.
      + injection Ei as <- <-. split; [exact P2|]. right. split; [now apply Hi|]. split; reflexivity.
      + injection Ei as <- <-. split.
        * intros tid' H0 N. rewrite <- (P2 tid' H0 N). rewrite !rows_in_of_rel. f_equal. apply insert_other. simpl. rewrite Rl. lia.
        * left. split; [intros H; apply Hi in H; discriminate|]. split; [reflexivity|].
          rewrite !rows_in_of_rel. rewrite (perm_filter (fun it => it_rel it =? tb_tid tb * 2 ^ 32) _ _ (insert_perm td it Eh) : Permutation (of_rel _ _) _).
          simpl. rewrite Rl, Z.eqb_refl. reflexivity.
    - assert (~ assigns_key kc cols) as N.
      { intros H. apply (assigns_updated kc cols Sm) in H. congruence. }
      assert (k' = it_key y) as ->.
      { rewrite Ea in Ek'. rewrite (MakeKey_ext kc (assign (it_row y) cols vals) (it_row y) Sm) in Ek'; [congruence|].
        intros c d Hi. apply assign_other; [exact Hc'|]. intros H. apply N. exists c, d. auto. }
      set (it := {| it_rel := _; it_key := it_key y; it_row := ra |}).
      assert (t_get t it = Some y) as Hgi.
      { apply t_get_In; [exact S|exact Hy|]. apply icmp_eq. simpl. rewrite Rl. auto. }
      split.
      + apply only_rel; [exact Hu|]. intros rel Nr. apply insert_other. simpl. rewrite Rl. congruence.
      + split; [reflexivity|]. destruct (replace_perm t it y S Hgi) as (rest & Q1 & Q2 & Q3).
        assert (fst (t_delete t it) = td) as Etd.
        { unfold td. assert (forall a b, icmp a b = Eq -> t_delete t a = t_delete t b) as Hdd.
          { intros a b Hab. clear - Hab. induction t as [|z t IH]; simpl; [reflexivity|].
            rewrite !same_item_icmp, IH, (icmp_eq_r _ _ z Hab). reflexivity. }
          f_equal. apply Hdd. apply icmp_eq. simpl. auto. }
        rewrite Etd in Q3.
        rewrite !rows_in_of_rel.
        rewrite (perm_filter (fun it => it_rel it =? tb_tid tb * 2 ^ 32) _ _ Q2 : Permutation (of_rel _ _) _).
        rewrite (perm_filter (fun it => it_rel it =? tb_tid tb * 2 ^ 32) _ _ Q3 : Permutation (of_rel _ td) _).
        simpl. rewrite Rl, Z.eqb_refl. simpl. rewrite <- Ea. reflexivity.
  Qed.

  Lemma update_updated h w x t j rr tb kc cols vals r :
    orderly (tb_tid tb) h w -> view w x = Some t -> nth_error (refs_of w x) j = Some rr ->
    nth_error (tables_of w x) (rr_tbl rr) = Some tb -> keyed tb kc ->
    Forall wf_value vals -> length cols = length vals ->
    Forall (fun c => 0 <= c < zlen (tt_types (tb_tt tb))) cols ->
    In r (rows_in t (tb_tid tb)) -> denotes kc rr r ->
    exists t', view (snd (step w (Call x (CUpdate j cols vals)))) x = Some t' /\
      updated tb kc t r cols vals (fst (step w (Call x (CUpdate j cols vals)))) t'.
  Proof.
    intros O Hv Hj Hn Hk Wv Hl Hc Hr Hd.
    destruct (update_exact h w x t j rr tb kc cols vals r O Hv Hj Hn Hk Wv Hl Hc Hr Hd) as (t' & V & rest & P1 & P2 & P3).
    exists t'. split; [exact V|]. exists rest. split; [exact P1|]. split; [exact P2|].
    destruct Hk as [Sm _]. pose proof (assigns_updated kc cols Sm) as A.
    destruct (ColumnKeyUpdated (keys_of kc) cols).
    - pose proof (proj1 A eq_refl) as A1. split; [contradiction|].
      destruct (ConvertRow (tt_types (tb_tt tb)) (assign r cols vals)) as [n|e|].
      + split; [|split].
        * intros _ n' [= <-] N. destruct P3 as [(_ & ? & ?)|(N' & _)]; [auto|contradiction].
        * intros _ n' [= <-] N. destruct P3 as [(N' & _)|(_ & ? & ?)]; [contradiction|auto].
        * discriminate.
      + split; [discriminate|]. split; [discriminate|]. intros _ e' [= <-]. exact P3.
      + split; [discriminate|]. split; [discriminate|]. discriminate.
    - assert (~ assigns_key kc cols) as N by (intros H; apply A in H; discriminate).
      split; [auto|]. split; [contradiction|]. split; [contradiction|]. contradiction.
  Qed.

  (** The calls that panic change nothing. *)
  Lemma update_panics h w x t j rr tb kc cols vals :
    orderly (tb_tid tb) h w -> view w x = Some t -> nth_error (refs_of w x) j = Some rr ->
    nth_error (tables_of w x) (rr_tbl rr) = Some tb -> keyed tb kc ->
    length cols <> length vals \/ (exists c, In c cols /\ ~ 0 <= c < zlen (tt_types (tb_tt tb))) \/
    (forall r, In r (rows_in t (tb_tid tb)) -> ~ denotes kc rr r) ->
    fst (step w (Call x (CUpdate j cols vals))) = OPanic /\
    view (snd (step w (Call x (CUpdate j cols vals)))) x = Some t.
  Proof.
    intros O Hv Hj Hn Hk H. destruct (step w (Call x (CUpdate j cols vals))) as [out w'] eqn:E. cbn [fst snd].
    destruct (update_step h w x t j rr tb kc cols vals out w' O Hv Hj Hn Hk E) as (K & t' & r1 & i' & i0 & Eu & V & ->).
    apply (update_eff tb _ _ _ _ _ _ _ _ (k_sorted _ _ _ _ _ _ K)) in Eu as (-> & Eu).
    destruct Eu as [(-> & -> & Eu)|(y & ra & Hl & Hg & Ha & _)]; [split; [reflexivity|exact V]|exfalso].
    destruct H as [H|[(c & Hc1 & Hc2)|H]].
    - contradiction.
    - pose proof (proj1 (setColumns_iff cols (it_row y) vals Hl) (ex_intro _ ra Ha)) as F.
      apply (proj1 (Forall_forall _ _) F) in Hc1. apply t_get_Some in Hg as [Hy Ey]. apply icmp_eq in Ey as [Ey _].
      simpl in Ey. rewrite (k_rel _ _ _ _ _ _ K) in Ey. destruct (k_item _ _ _ _ _ _ y K Hy Ey) as (_ & Hly & _).
      unfold zlen in *. lia.
    - destruct (proj2 (denoted_item h w x t tb kc rr K Hk Hn (nth_error_In _ _ Hj) (it_row y)) (ex_intro _ y (conj Hg eq_refl))) as [H1 H2].
      exact (H _ H1 H2).
  Qed.

  (** ** Scans that succeed *)
  Lemma scan_succeeds h w x t i tb kc cols mn mx p :
    orderly (tb_tid tb) h w -> view w x = Some t -> nth_error (tables_of w x) i = Some tb -> keyed tb kc ->
    bound_wf mn -> bound_wf mx -> bound_fits kc mn -> bound_fits kc mx ->
    (forall p0, p = Some p0 -> exists ct, 0 <= p_column p0 /\
       nth_error (tt_types (tb_tt tb)) (Z.to_nat (p_column p0)) = Some ct /\ has_method p0 (ct_type ct) /\
       forall r, In r (rows_in t (tb_tid tb)) -> in_range kc mn mx r = true ->
         of_type (ct_type ct) (nth (Z.to_nat (p_column p0)) r VNull)) ->
    fst (step w (Call x (CRows i cols mn mx p))) = ODone.
  Proof.
    intros O Hv Hn Hk Wn Wx Fn Fx Hp. destruct (step w (Call x (CRows i cols mn mx p))) as [out w'] eqn:E. cbn [fst].
    pose proof (nth_error_In _ _ Hn) as Hb. pose proof (table_known' HX HG h w x t tb kc O Hv Hb Hk) as K.
    destruct (live_step w x t (CRows i cols mn mx p) _ w' (k_wok _ _ _ _ _ _ K) Hv ltac:(discriminate) ltac:(discriminate) E)
      as (v & v' & Es & Hok & A1 & A2 & A3 & A4 & A5 & B1 & B2 & B3 & B4 & B5 & B6).
    simpl in Es. rewrite A2, Hn in Es. unfold vrun in Es. rewrite A1 in Es.
    pose proof Hk as [Sm Ek].
    assert (forall b, bound_fits kc b -> exists I0, rowToItem (toRelationId (tb_tid tb)) (tt_key (tb_tt tb)) b = Some I0) as RI.
    { intros [b|] Fb; unfold rowToItem; [|eauto]. rewrite Ek. destruct (MakeKey_fits kc b (Fb b eq_refl)) as (k & ->). eauto. }
    destruct (RI mn Fn) as (mnI & Emn).
    assert (exists mxI, match mx with
      | None => mxI = None
      | Some _ => exists m, rowToItem (toRelationId (tb_tid tb)) (tt_key (tb_tt tb)) mx = Some m /\ mxI = Some m
      end) as (mxI & Emx).
    { destruct mx as [mx|]; [|eauto]. destruct (RI (Some mx) Fx) as (m & Em). eauto. }
    assert (exists pf, pred_fn tb p pf /\ forall it, In it t -> it_rel it = toRelationId (tb_tid tb) ->
      in_range kc mn mx (it_row it) = true -> passable pf it) as (pf & Hpf & Hpass).
    { destruct p as [p0|]; [|exists None; split; [reflexivity|intros; exact I]].
      destruct (Hp p0 eq_refl) as (ct & Hc0 & Hct & Hm & Hty).
      destruct (predicateFunction p0 ct) as [f|] eqn:Ef; [|now apply predicateFunction_None in Ef].
      exists (Some (p_column p0, f)). split.
      - exists ct, f. split; [|auto]. unfold znth. destruct (Z.ltb_spec (p_column p0) 0); [lia|exact Hct].
      - intros it Hi Er Hin. rewrite (k_rel _ _ _ _ _ _ K) in Er. destruct (k_item _ _ _ _ _ _ it K Hi Er) as (_ & Hl & _).
        simpl. assert (Z.to_nat (p_column p0) < length (it_row it))%nat as Hlt.
        { rewrite Hl. apply nth_error_Some. congruence. }
        exists (nth (Z.to_nat (p_column p0)) (it_row it) VNull).
        destruct (predicateFunction_applies p0 ct f (nth (Z.to_nat (p_column p0)) (it_row it) VNull) Ef) as (b & Eb).
        { apply Hty; [|exact Hin]. rewrite rows_in_of_rel. apply in_map, of_rel_In. auto. }
        exists b. split; [|exact Eb]. unfold znth. destruct (Z.ltb_spec (p_column p0) 0); [lia|]. now apply nth_error_nth'. }
    destruct (rows_succeeds tb mn mx p t (v_idt v) mnI mxI pf (k_sorted _ _ _ _ _ _ K) Emn Emx Hpf) as (items & Ei).
    - intros it Hi Er Hin. apply Hpass; try assumption.
      rewrite <- (in_range_items h w x t tb kc mn mx mnI mxI it K Hk Wn Wx Emn Emx Hi); [exact Hin|].
      rewrite Er. exact (k_rel _ _ _ _ _ _ K).
    - rewrite Ei in Es. injection Es as <- _. reflexivity.
  Qed.

  (** ** Stored rows, when nothing is updated *)
  Lemma rows_storable h w x t tb :
    orderly (tb_tid tb) h w -> Forall no_update (map fst h) -> view w x = Some t -> In tb (tables_of w x) ->
    Forall (Forall2 storable (tt_types (tb_tt tb))) (rows_in t (tb_tid tb)).
  Proof.
    intros (R & HT & HR) HN Hv Hb. destruct (ran_base h w x t HX HG R HT Hv) as (T & S & B).
    pose proof (proj1 (Forall_forall _ _) B tb Hb) as Ht. simpl in Ht.
    pose proof (ran_inv True (tb_tid tb) h w HX HG ltac:(lia) R HT ltac:(auto) HR) as [_ K].
    destruct (K x t Hv) as [_ _ (kc & cts & D)]. destruct (d_tbs _ _ _ _ _ _ _ _ _ D tb Hb eq_refl) as [E1 E2]. subst cts.
    rewrite rows_in_of_rel. apply Forall_map_iff, Forall_forall. intros it Hi. apply of_rel_In in Hi as [Hi Er].
    destruct (d_items _ _ _ _ _ _ _ _ _ D it Hi Er) as (_ & _ & _ & St). exact (St I).
  Qed.

  (** The number of values of a row is that of the columns, always. *)
  Lemma rows_width h w x t tb :
    orderly (tb_tid tb) h w -> view w x = Some t -> In tb (tables_of w x) ->
    Forall (fun r => length r = length (tt_types (tb_tt tb)) /\ Forall wf_value r) (rows_in t (tb_tid tb)).
  Proof.
    intros O Hv Hb. destruct (table_known HX HG h w x t tb O Hv Hb) as (kc & Hk & K).
    rewrite rows_in_of_rel. apply Forall_map_iff, Forall_forall. intros it Hi. apply of_rel_In in Hi as [Hi Er].
    destruct (k_item _ _ _ _ _ _ it K Hi Er) as (_ & ? & ?). auto.
  Qed.

  (** ** Creating *)
  Lemma create_step h w x t tid tn cn ct p out w' :
    ran h w -> Forall op_typed (map fst h) -> view w x = Some t -> is_u32 tid ->
    step w (Call x (CCreateTable tid tn cn ct p)) = (out, w') ->
    sorted t /\ types_ok t /\ exists t' r i', vCreateTable tid tn cn ct p (t, sh_idt (w_sh w)) = (r, (t', i')) /\
      view w' x = Some t' /\ out = outcome_of (fun _ => ODone) r /\ tables_of w' x = tables_of w x.
  Proof.
    intros R HT Hv Hu E. destruct (ran_base h w x t HX HG R HT Hv) as (T & S & B). split; [exact S|]. split; [exact T|].
    destruct (live_step w x t (CCreateTable tid tn cn ct p) _ w' (ran_wok h w R) Hv ltac:(discriminate) ltac:(discriminate) E)
      as (v & v' & Es & Hok & A1 & A2 & A3 & A4 & A5 & B1 & B2 & B3 & B4 & B5 & B6).
    simpl in Es. unfold vrun in Es. rewrite A1, A5 in Es.
    destruct (vCreateTable tid tn cn ct p (t, sh_idt (w_sh w))) as [r [t1 i1]] eqn:Er.
    exists t1, r, i1. split; [reflexivity|]. destruct r as [[]|e|]; injection Es as <- <-; simpl in *; rewrite ?A2 in B2; auto.
  Qed.

  Lemma exists_tyitem t tid : types_ok t -> is_u32 tid -> (exists_in t tid <-> exists wt, In (tyitem tid wt) t).
  Proof.
    intros T Hu. unfold exists_in. rewrite rows_in_of_rel. split.
    - intros (b & Hi). apply in_map_iff in Hi as (it & E & Hi). apply of_rel_In in Hi as [Hi Er].
      destruct (T it Hi ltac:(lia)) as (tid0 & i0 & ty & _ & ->). simpl in E. injection E as -> _. eauto.
    - intros (wt & Hi). exists (x_gob_encode wt). apply in_map_iff. exists (tyitem tid wt). split; [reflexivity|].
      apply of_rel_In. split; [exact Hi|reflexivity].
  Qed.

  (** A new table has no rows, if its id was never used. *)
  Lemma create_empty h w x t tid tn cn ct p w' :
    ran h w -> Forall op_typed (map fst h) -> dropped tid h = false -> view w x = Some t ->
    op_typed (Call x (CCreateTable tid tn cn ct p)) ->
    step w (Call x (CCreateTable tid tn cn ct p)) = (ODone, w') ->
    exists t', view w' x = Some t' /\ rows_in t' tid = [] /\ exists_in t' tid /\ ~ exists_in t tid.
  Proof.
    intros R HT HD Hv HTc E. simpl in HTc. destruct HTc as (Hu & _ & _).
    destruct (create_step h w x t tid tn cn ct p _ w' R HT Hv Hu E) as (S & T & t' & r & i' & Er & V & Ho & _).
    apply (createTable_eff tid tn cn ct p t _ r t' i' HG Hu S T) in Er.
    destruct r as [[]|e|]; try discriminate. destruct Er as [(_ & N & _)|(_ & He & _ & Nt & _ & k & _ & _ & _ & ->)]; [contradiction|].
    eexists. split; [exact V|].
    assert (recreated tid h = false) as HR.
    { clear - HD. induction h as [|[o out] h IH]; [reflexivity|]. simpl in *.
      destruct o as [y|y c|s q]; try now apply IH. destruct c; try now apply IH. destruct out; try now apply IH.
      apply orb_false_iff in HD as [-> HD]. now apply IH. }
    pose proof (ran_inv False tid h w HX HG He R HT ltac:(tauto) HR) as [_ K].
    destruct (K x t Hv) as [_ _ (kc & cts & D)].
    destruct (d_none _ _ _ _ _ _ _ _ _ D HD) as [(wt & Hw)|[H0 _]]; [now apply Nt in Hw|].
    set (it := tyitem _ _). split; [|split].
    - rewrite rows_in_of_rel, insert_other; [now rewrite H0|]. simpl. unfold EngineTableId in He. lia.
    - eexists. rewrite rows_in_of_rel. apply in_map_iff. exists it. split; [reflexivity|]. apply of_rel_In.
      split; [|reflexivity]. apply insert_In; [exact S|]. now left.
    - intros H. apply (exists_tyitem t tid T Hu) in H as (wt & Hw). now apply Nt in Hw.
  Qed.
End Calls.
