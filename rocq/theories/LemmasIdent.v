(** Proofs about types/identifier.go. *)

From Verif Require Import SpecIdent LemmasBase.
From Coq Require Import ZifyBool ZifyNat.

Lemma truncID_firstn s : truncID s = firstn 128 s.
Proof.
  unfold truncID, MaxIdentifier. destruct (Nat.ltb_spec 128 (length s)); [reflexivity|].
  symmetry. now apply firstn_all2.
Qed.

Lemma lookup_bytes_In m s i : lookup_bytes m s = Some i -> In (s, i) m.
Proof.
  induction m as [|[k v] m IH]; cbn [lookup_bytes]; [discriminate|].
  destruct (bytes_eqb k s) eqn:E.
  - intros [= <-]. apply bytes_eqb_eq in E. subst. now left.
  - intros H. right. auto.
Qed.

Lemma lookup_bytes_None m s : lookup_bytes m s = None <-> ~ In s (map fst m).
Proof.
  induction m as [|[k v] m IH]; cbn [lookup_bytes map fst In].
  - split; [tauto|reflexivity].
  - destruct (bytes_eqb k s) eqn:E.
    + apply bytes_eqb_eq in E. subst. split; [discriminate|tauto].
    + rewrite IH. split; [|tauto]. intros H [->|H']; [|tauto].
      rewrite bytes_eqb_refl in E. discriminate.
Qed.

Lemma lookup_bytes_intro m s i : NoDup (map fst m) -> In (s, i) m -> lookup_bytes m s = Some i.
Proof.
  induction m as [|[k v] m IH]; cbn [lookup_bytes map fst]; intros N H; [easy|].
  inversion_clear N as [|? ? N1 N2]. destruct H as [[= -> ->]|H].
  - now rewrite bytes_eqb_refl.
  - destruct (bytes_eqb k s) eqn:E; [|now apply IH].
    apply bytes_eqb_eq in E. subst. destruct N1. apply in_map_iff. now exists (s, i).
Qed.

Lemma lookup_Z_intro m s i : NoDup (map fst m) -> In (i, s) m -> lookup_Z m i = Some s.
Proof.
  induction m as [|[k v] m IH]; cbn [lookup_Z map fst]; intros N H; [easy|].
  inversion_clear N as [|? ? N1 N2]. destruct H as [[= -> ->]|H].
  - now rewrite Z.eqb_refl.
  - destruct (Z.eqb_spec k i) as [->|]; [|now apply IH].
    destruct N1. apply in_map_iff. now exists (i, s).
Qed.

Fixpoint nodup_bytes (l : list bytes) : bool :=
  match l with [] => true | x :: r => negb (existsb (bytes_eqb x) r) && nodup_bytes r end.

Lemma nodup_bytes_spec l : nodup_bytes l = true -> NoDup l.
Proof.
  induction l as [|x l IH]; intros H; constructor; cbn in H; apply andb_prop in H; destruct H as [H1 H2].
  - intros Hin. apply negb_true_iff in H1. assert (existsb (bytes_eqb x) l = true) as E; [|congruence].
    apply existsb_exists. exists x. split; [exact Hin|apply bytes_eqb_refl].
  - now apply IH.
Qed.

Fixpoint nodup_Z (l : list Z) : bool :=
  match l with [] => true | x :: r => negb (existsb (Z.eqb x) r) && nodup_Z r end.

Lemma nodup_Z_spec l : nodup_Z l = true -> NoDup l.
Proof.
  induction l as [|x l IH]; intros H; constructor; cbn in H; apply andb_prop in H; destruct H as [H1 H2].
  - intros Hin. apply negb_true_iff in H1. assert (existsb (Z.eqb x) l = true) as E; [|congruence].
    apply existsb_exists. exists x. split; [exact Hin|apply Z.eqb_refl].
  - now apply IH.
Qed.

Definition mem_bytes (s : bytes) (l : list bytes) : bool := existsb (bytes_eqb s) l.
Lemma mem_bytes_In s l : mem_bytes s l = true <-> In s l.
Proof.
  unfold mem_bytes. rewrite existsb_exists. split.
  - intros (x & H & E). apply bytes_eqb_eq in E. now subst.
  - intros H. exists s. split; [exact H|apply bytes_eqb_refl].
Qed.

(** ** The fixed tables *)

Lemma keywords_words w : In w (map fst keywords) <-> In w (reserved_words ++ nonreserved_words).
Proof.
  assert (forallb (fun x => mem_bytes x (map fst keywords)) (reserved_words ++ nonreserved_words) = true) as H1
    by (vm_compute; reflexivity).
  assert (forallb (fun x => mem_bytes x (reserved_words ++ nonreserved_words)) (map fst keywords) = true) as H2
    by (vm_compute; reflexivity).
  rewrite forallb_forall in H1, H2. split; intros H.
  - apply mem_bytes_In. now apply H2.
  - apply mem_bytes_In. now apply H1.
Qed.

Lemma keywords_reserved w i : In (w, i) keywords -> (i < 0 <-> In w reserved_words).
Proof.
  intros H.
  assert (forallb (fun p => Bool.eqb (snd p <? 0) (mem_bytes (fst p) reserved_words)) keywords = true) as H1
    by (vm_compute; reflexivity).
  rewrite forallb_forall in H1. specialize (H1 (w, i) H). cbn [fst snd] in H1.
  apply Bool.eqb_prop in H1. rewrite <- mem_bytes_In, <- H1. lia.
Qed.

Lemma keywords_nodup : NoDup (map fst keywords).
Proof. apply nodup_bytes_spec. vm_compute. reflexivity. Qed.

Lemma keywords_upper w : In w (map fst keywords) ->
  map ascii_upper w = w /\ Forall is_ascii w /\ (length w <= 128)%nat.
Proof.
  intros H.
  assert (forallb (fun x => bytes_eqb (map ascii_upper x) x &&
    (forallb (fun b => bz b <? 128) x && (length x <=? 128)%nat)) (map fst keywords) = true) as H1
    by (vm_compute; reflexivity).
  rewrite forallb_forall in H1. specialize (H1 w H).
  apply andb_prop in H1. destruct H1 as [H1 H2]. apply andb_prop in H2. destruct H2 as [H2 H3].
  apply bytes_eqb_eq in H1. split; [exact H1|]. split; [|lia].
  apply Forall_forall. intros b Hb. rewrite forallb_forall in H2. specialize (H2 b Hb).
  unfold is_ascii. lia.
Qed.

(** ** The invariant of the table *)

(** Every known identifier with what it stands for. *)
Definition entries (t : idtable) : list (meaning * Z) :=
  map (fun p => (Name (fst p), snd p)) (idt_ids t) ++
  map (fun p => (Keyword (fst p), snd p)) keywords.

Record idt_ok (t : idtable) : Prop := {
  ok_keys : NoDup (map fst (idt_ids t));
  ok_ids : NoDup (map snd (entries t));
  ok_last : forall i, In i (map snd (entries t)) -> i <= idt_last t;
  ok_last0 : 0 <= idt_last t;
  ok_pos : forall s i, In (s, i) (idt_ids t) -> 0 <= i;
  ok_ndup : NoDup (map fst (idt_names t));
  ok_names : forall m i, In (m, i) (entries t) -> In (i, meaning_text m) (idt_names t);
  ok_names_only : forall i, In i (map fst (idt_names t)) -> In i (map snd (entries t))
}.

Lemma idt_init_ok : idt_ok idt_init.
Proof.
  assert (forallb (fun i => i <=? 46) (map snd (entries idt_init)) = true) as H1 by (vm_compute; reflexivity).
  assert (forallb (fun p => 0 <=? snd p) (idt_ids idt_init) = true) as H2 by (vm_compute; reflexivity).
  assert (idt_last idt_init = 46) as H3 by (vm_compute; reflexivity).
  rewrite forallb_forall in H1, H2.
  constructor.
  - apply nodup_bytes_spec. vm_compute. reflexivity.
  - apply nodup_Z_spec. vm_compute. reflexivity.
  - intros i Hi. specialize (H1 i Hi). lia.
  - lia.
  - intros s i Hi. specialize (H2 _ Hi). cbn in H2. lia.
  - apply nodup_Z_spec. vm_compute. reflexivity.
  - intros m i Hm. unfold entries in Hm. cbn [idt_names idt_init].
    apply in_map_iff. apply in_app_or in Hm. destruct Hm as [Hm|Hm];
      apply in_map_iff in Hm; destruct Hm as ([s j] & [= <- <-] & Hm); exists (s, j);
      (split; [reflexivity|]); apply in_or_app; [now left|now right].
  - intros i. unfold entries. cbn [idt_names idt_init idt_ids]. rewrite map_map. cbn [fst].
    rewrite !map_app, !map_map. cbn [snd]. tauto.
Qed.

Section Lib.
  Context {L : CaseLib}.

  Lemma means_keyword_lookup s i :
    lookup_bytes keywords (x_to_upper (firstn 128 s)) = Some i ->
    exists w, means s false (Keyword w) /\ In (w, i) keywords.
  Proof.
    intros H. apply lookup_bytes_In in H. exists (x_to_upper (firstn 128 s)). split; [|exact H].
    constructor; [reflexivity|]. apply keywords_words. apply in_map_iff. now exists (x_to_upper (firstn 128 s), i).
  Qed.

  Lemma means_total s q : exists m, means s q m.
  Proof.
    destruct q; [eexists; constructor|].
    destruct (mem_bytes (x_to_upper (firstn 128 s)) (reserved_words ++ nonreserved_words)) eqn:E.
    - apply mem_bytes_In in E. eexists. now apply means_keyword.
    - eexists. apply means_name. rewrite <- mem_bytes_In. congruence.
  Qed.

  Lemma means_fun s q m m' : means s q m -> means s q m' -> m = m'.
  Proof. intros H1 H2. inversion H1; inversion H2; subst; try congruence; try tauto. Qed.

  (** lookupID in terms of meanings. *)
  Lemma lookupID_spec t s q create t' r m :
    idt_ok t -> means s q m -> lookupID t (firstn 128 s) q create = (t', r) ->
    idt_ok t' /\ (forall m i, In (m, i) (entries t) -> In (m, i) (entries t')) /\
    match r with
    | Some i => In (m, i) (entries t')
    | None => create = false /\ t' = t
    end /\
    (In m (map fst (entries t)) -> t' = t).
  Proof.
    intros Hok Hm. unfold lookupID.
    destruct (if q then None else lookup_bytes keywords (x_to_upper (firstn 128 s))) as [id|] eqn:Ek.
    - intros [= <- <-]. split; [exact Hok|]. split; [auto|]. split; [|reflexivity].
      destruct q; [discriminate|]. apply means_keyword_lookup in Ek.
      destruct Ek as (w & Hw & Hin). rewrite (means_fun _ _ _ _ Hm Hw).
      unfold entries. apply in_or_app. right. apply in_map_iff. now exists (w, id).
    - cbv zeta. match goal with |- context [lookup_bytes (idt_ids t) ?x] => set (n := x) end.
      assert (m = Name n) as ->.
      { apply (means_fun _ _ _ _ Hm). unfold n. destruct q; [constructor|].
        apply means_name. rewrite <- keywords_words. now apply lookup_bytes_None. }
      destruct (lookup_bytes (idt_ids t) n) as [id|] eqn:El.
      + intros [= <- <-]. split; [exact Hok|]. split; [auto|]. split; [|reflexivity].
        apply lookup_bytes_In in El. unfold entries. apply in_or_app. left. apply in_map_iff. now exists (n, id).
      + apply lookup_bytes_None in El.
        assert (~ In (Name n) (map fst (entries t))) as Hnew.
        { unfold entries. rewrite map_app, !map_map. cbn [fst]. rewrite in_app_iff, !in_map_iff.
          intros [([k v] & E & Hin)|(? & E & _)]; [|discriminate]. injection E as ->. apply El. apply in_map_iff. now exists (n, v). }
        destruct create; intros [= <- <-].
        2: { split; [exact Hok|]. split; [auto|]. split; [now split|]. tauto. }
        assert (forall m i, In (m, i) (entries t) -> i <> idt_last t + 1) as Hfresh.
        { intros m' i Hin E. assert (i <= idt_last t); [|lia].
          apply (ok_last t Hok). apply in_map_iff. now exists (m', i). }
        split; [|split; [|split]].
        * destruct Hok as [K1 K2 K3 K4 K5 K6 K7 K8].
          constructor; cbn [idt_ids idt_names idt_last entries map fst snd app].
          -- now constructor.
          -- constructor; [|exact K2]. intros Hin. apply in_map_iff in Hin.
             destruct Hin as ([m' i] & E & Hin). cbn in E. subst i. now apply Hfresh in Hin.
          -- intros i [<-|Hin]; [lia|]. specialize (K3 i Hin). lia.
          -- lia.
          -- intros s' i [[= _ <-]|Hin]; [lia|]. now apply (K5 s').
          -- constructor; [|exact K6]. intros Hin. apply K8 in Hin. specialize (K3 _ Hin). lia.
          -- intros m' i [[= <- <-]|Hin]; [now left|]. right. now apply K7.
          -- intros i [<-|Hin]; [now left|]. right. now apply K8.
        * intros m' i Hin. now right.
        * now left.
        * tauto.
  Qed.

  (** What is known of a goroutine: when it is done its identifier is recorded
      with its meaning. *)
  Definition thread_ok (t : idtable) (th : idthread) : Prop :=
    match th with
    | TDone s q i => exists m, means s q m /\ In (m, i) (entries t)
    | _ => True
    end.

  Lemma thread_step_ok t th t' th' :
    idt_ok t -> thread_ok t th -> idThreadStep t th = (t', th') ->
    idt_ok t' /\ (forall m i, In (m, i) (entries t) -> In (m, i) (entries t')) /\ thread_ok t' th'.
  Proof.
    intros Hok Hth. destruct th as [s q|s q|s q i]; cbn [idThreadStep].
    - rewrite truncID_firstn. destruct (lookupID t (firstn 128 s) q false) as [t1 r] eqn:E.
      destruct (means_total s q) as [m Hm].
      destruct (lookupID_spec _ _ _ _ _ _ _ Hok Hm E) as (H1 & H2 & H3 & _).
      destruct r; intros [= <- <-]; (split; [exact H1|split; [exact H2|]]); [now exists m|exact I].
    - rewrite truncID_firstn. destruct (lookupID t (firstn 128 s) q true) as [t1 r] eqn:E.
      destruct (means_total s q) as [m Hm].
      destruct (lookupID_spec _ _ _ _ _ _ _ Hok Hm E) as (H1 & H2 & H3 & _).
      destruct r; intros [= <- <-].
      + split; [exact H1|]. split; [exact H2|]. now exists m.
      + destruct H3; discriminate.
    - intros [= <- <-]. split; [exact Hok|]. now split.
  Qed.

  Lemma idreach_ok t ths : idreach (t, ths) -> idt_ok t /\ Forall (thread_ok t) ths.
  Proof.
    intros H. remember (t, ths) as c eqn:E. revert t ths E.
    induction H as [|c c' Hc IH Hs]; intros t ths E.
    - injection E as <- <-. split; [exact idt_init_ok|constructor].
    - destruct Hs as [t0 ths0 s q|t0 ths1 th ths2 t' th' Hs].
      + injection E as <- <-. destruct (IH _ _ eq_refl) as [I1 I2]. split; [exact I1|].
        apply Forall_app. split; [exact I2|]. constructor; [exact I|constructor].
      + injection E as <- <-. destruct (IH _ _ eq_refl) as [I1 I2].
        apply Forall_app in I2. destruct I2 as [I2 I3]. inversion_clear I3 as [|? ? I4 I5].
        destruct (thread_step_ok _ _ _ _ I1 I4 Hs) as (J1 & J2 & J3).
        split; [exact J1|].
        assert (forall x, thread_ok t0 x -> thread_ok t' x) as Hmono.
        { intros [|? ?|? ? ?]; cbn; try tauto. intros (m & Hm & Hin). exists m. auto. }
        apply Forall_app. split; [eapply Forall_impl; [|exact I2]; exact Hmono|].
        constructor; [exact J3|]. eapply Forall_impl; [|exact I5]. exact Hmono.
  Qed.

  Lemma entries_id_unique t m i j : idt_ok t -> In (m, i) (entries t) -> In (m, j) (entries t) -> i = j.
  Proof.
    intros Hok H1 H2.
    assert (NoDup (map fst (entries t))) as N.
    { unfold entries. rewrite map_app, !map_map. cbn [fst].
      assert (forall (A B : Type) (f : A -> B) l, (forall x y, f x = f y -> x = y) -> NoDup l -> NoDup (map f l)) as Hmap.
      { intros A B f l Hf Hn. induction Hn as [|x l Hx Hn IH]; cbn [map]; constructor; [|exact IH].
        rewrite in_map_iff. intros (y & Ey & Hy). apply Hf in Ey. now subst. }
      rewrite <- (map_map fst Name), <- (map_map fst Keyword).
      apply NoDup_app_intro.
      - apply Hmap; [congruence|]. apply (ok_keys t Hok).
      - apply Hmap; [congruence|]. apply keywords_nodup.
      - intros x Hx Hy. apply in_map_iff in Hx, Hy. destruct Hx as (? & <- & _), Hy as (? & [=] & _). }
    clear Hok. induction (entries t) as [|[m' k] l IH]; [easy|]. cbn in N. inversion_clear N as [|? ? N1 N2].
    destruct H1 as [H1|H1], H2 as [H2|H2].
    - congruence.
    - injection H1 as -> ->. destruct N1. apply in_map_iff. now exists (m, j).
    - injection H2 as -> ->. destruct N1. apply in_map_iff. now exists (m, i).
    - now apply IH.
  Qed.

  Lemma entries_meaning_unique t m m' i : idt_ok t -> In (m, i) (entries t) -> In (m', i) (entries t) -> m = m'.
  Proof.
    intros Hok H1 H2. pose proof (ok_ids t Hok) as N. clear Hok.
    induction (entries t) as [|[m0 k] l IH]; [easy|]. cbn in N. inversion_clear N as [|? ? N1 N2].
    destruct H1 as [H1|H1], H2 as [H2|H2].
    - congruence.
    - injection H1 as -> ->. destruct N1. apply in_map_iff. now exists (m', i).
    - injection H2 as -> ->. destruct N1. apply in_map_iff. now exists (m, i).
    - now apply IH.
  Qed.

  Lemma idString_entry t m i : idt_ok t -> In (m, i) (entries t) -> idString t i = meaning_text m.
  Proof.
    intros Hok H. unfold idString. rewrite (lookup_Z_intro _ (meaning_text m)); [reflexivity|apply (ok_ndup t Hok)|].
    now apply (ok_names t Hok).
  Qed.

  Lemma interning_lemma t ths s1 q1 i1 s2 q2 i2 m1 m2 :
    idreach (t, ths) -> returned ths s1 q1 i1 -> returned ths s2 q2 i2 ->
    means s1 q1 m1 -> means s2 q2 m2 ->
    (i1 = i2 <-> m1 = m2).
  Proof.
    intros Hr R1 R2 M1 M2. apply idreach_ok in Hr. destruct Hr as [Hok Hth].
    rewrite Forall_forall in Hth.
    destruct (Hth _ R1) as (n1 & N1 & E1). destruct (Hth _ R2) as (n2 & N2 & E2).
    rewrite (means_fun _ _ _ _ N1 M1) in E1. rewrite (means_fun _ _ _ _ N2 M2) in E2.
    split.
    - intros ->. exact (entries_meaning_unique t m1 m2 i2 Hok E1 E2).
    - intros ->. exact (entries_id_unique t m2 i1 i2 Hok E1 E2).
  Qed.

  Lemma string_lemma t ths s q i m :
    idreach (t, ths) -> returned ths s q i -> means s q m -> idString t i = meaning_text m.
  Proof.
    intros Hr R M. apply idreach_ok in Hr. destruct Hr as [Hok Hth]. rewrite Forall_forall in Hth.
    destruct (Hth _ R) as (n & N & E). rewrite (means_fun _ _ _ _ N M) in E.
    now apply idString_entry.
  Qed.

  Lemma returned_stays c c' s q i :
    idstep c c' -> returned (snd c) s q i -> returned (snd c') s q i.
  Proof.
    intros [t ths s' q'|t ths1 th ths2 t' th' Hs]; unfold returned; cbn [snd]; intros H.
    - apply in_or_app. now left.
    - apply in_app_or in H. apply in_or_app. destruct H as [H|[->|H]]; [now left| |now right; right].
      right. left. cbn in Hs. now injection Hs.
  Qed.

  (** A call finishes after at most two of its own critical sections. *)
  Lemma progress_lemma t s q :
    exists t1 th1 t2 id, idThreadStep t (TStart s q) = (t1, th1) /\
      forall t', idThreadStep t' th1 = (t2 t', TDone s q (id t')).
  Proof.
    destruct (idThreadStep t (TStart s q)) as [t1 th1] eqn:E.
    exists t1, th1. cbn in E. destruct (lookupID t (truncID s) q false) as [t0 [i|]].
    - injection E as <- <-. exists (fun t' => t'), (fun _ => i). split; reflexivity.
    - injection E as <- <-.
      exists (fun t' => fst (lookupID t' (truncID s) q true)),
             (fun t' => match snd (lookupID t' (truncID s) q true) with Some i => i | None => 0 end).
      split; [reflexivity|]. intros t'. cbn. destruct (lookupID t' (truncID s) q true) as [t2 [i|]]; reflexivity.
  Qed.

  (** ** One call alone *)

  Lemma ID_spec t s q t' i m :
    idt_ok t -> means s q m -> ID t s q = (t', i) ->
    idt_ok t' /\ (forall m i, In (m, i) (entries t) -> In (m, i) (entries t')) /\
    In (m, i) (entries t') /\ (In m (map fst (entries t)) -> t' = t).
  Proof.
    intros Hok Hm. unfold ID. rewrite truncID_firstn.
    destruct (lookupID t (firstn 128 s) q false) as [t1 r] eqn:E1.
    destruct (lookupID_spec _ _ _ _ _ _ _ Hok Hm E1) as (H1 & H2 & H3 & H4).
    destruct r as [j|].
    - intros [= <- <-]. split; [exact H1|]. now split.
    - destruct H3 as [_ ->].
      destruct (lookupID t (firstn 128 s) q true) as [t2 r] eqn:E2.
      destruct (lookupID_spec _ _ _ _ _ _ _ Hok Hm E2) as (K1 & K2 & K3 & K4).
      destruct r as [j|]; [|destruct K3; discriminate].
      intros [= <- <-]. split; [exact K1|]. now split.
  Qed.

  Lemma ID_sequential t ths s q t' i :
    idreach (t, ths) -> ID t s q = (t', i) ->
    exists ths', idreach (t', ths') /\ returned ths' s q i /\
      (forall s0 q0 i0, returned ths s0 q0 i0 -> returned ths' s0 q0 i0).
  Proof.
    intros Hr E.
    assert (idreach (t, ths ++ [TStart s q])) as Hr0 by (eapply idreach_step; [exact Hr|constructor]).
    unfold ID in E.
    destruct (lookupID t (truncID s) q false) as [t1 [j|]] eqn:E1.
    - injection E as <- <-. exists (ths ++ [TDone s q j]). split; [|split].
      + eapply idreach_step; [exact Hr0|]. apply (idstep_run t ths (TStart s q) []). cbn. now rewrite E1.
      + apply in_or_app. right. now left.
      + intros. apply in_or_app. now left.
    - assert (idreach (t1, ths ++ [TMiss s q])) as Hr1.
      { eapply idreach_step; [exact Hr0|]. apply (idstep_run t ths (TStart s q) []). cbn. now rewrite E1. }
      destruct (lookupID t1 (truncID s) q true) as [t2 [j|]] eqn:E2; injection E as <- <-.
      + exists (ths ++ [TDone s q j]). split; [|split].
        * eapply idreach_step; [exact Hr1|]. apply (idstep_run t1 ths (TMiss s q) []). cbn. now rewrite E2.
        * apply in_or_app. right. now left.
        * intros. apply in_or_app. now left.
      + exists (ths ++ [TDone s q 0]). split; [|split].
        * eapply idreach_step; [exact Hr1|]. apply (idstep_run t1 ths (TMiss s q) []). cbn. now rewrite E2.
        * apply in_or_app. right. now left.
        * intros. apply in_or_app. now left.
  Qed.

  (** ** Case and quoting *)

  Lemma firstn_map {A B} (f : A -> B) n l : firstn n (map f l) = map f (firstn n l).
  Proof. revert l; induction n; intros [|x l]; cbn; congruence. Qed.

  Lemma case_meaning s1 s2 m1 m2 :
    CaseLib_ok L -> same_but_case s1 s2 -> means s1 false m1 -> means s2 false m2 -> m1 = m2.
  Proof.
    intros (_ & _ & U & W) E M1 M2. unfold same_but_case in E.
    assert (x_to_upper (firstn 128 s1) = x_to_upper (firstn 128 s2)) as Eu.
    { rewrite <- (U (firstn 128 s1)), <- (U (firstn 128 s2)), <- !firstn_map. now rewrite E. }
    assert (x_to_lower (firstn 128 s1) = x_to_lower (firstn 128 s2)) as El.
    { rewrite <- (W (firstn 128 s1)), <- (W (firstn 128 s2)), <- !firstn_map. now rewrite E. }
    inversion M1; inversion M2; subst; try congruence; rewrite Eu in *; tauto.
  Qed.

  Lemma means_firstn s q m : means s q m -> means (firstn 128 s) q m.
  Proof.
    assert (firstn 128 (firstn 128 s) = firstn 128 s) as F by (rewrite firstn_firstn; f_equal).
    intros M. inversion M; subst.
    - pose proof (means_quoted (firstn 128 s)) as P. now rewrite F in P.
    - apply means_keyword; [now rewrite F|assumption].
    - pose proof (means_name (firstn 128 s)) as P. rewrite F in P. now apply P.
  Qed.

  Lemma case_insensitive_lemma t ths s1 s2 i1 i2 :
    CaseLib_ok L -> idreach (t, ths) ->
    returned ths s1 false i1 -> returned ths s2 false i2 ->
    same_but_case (firstn 128 s1) (firstn 128 s2) -> i1 = i2.
  Proof.
    intros HL Hr R1 R2 E.
    destruct (means_total s1 false) as [m1 M1]. destruct (means_total s2 false) as [m2 M2].
    apply (interning_lemma t ths s1 false i1 s2 false i2 m1 m2 Hr R1 R2 M1 M2).
    apply (case_meaning (firstn 128 s1) (firstn 128 s2) m1 m2 HL E).
    - now apply means_firstn.
    - now apply means_firstn.
  Qed.

  Lemma reserved_lemma t ths s q i m :
    idreach (t, ths) -> returned ths s q i -> means s q m ->
    (IsReserved i = true <-> exists w, m = Keyword w /\ In w reserved_words).
  Proof.
    intros Hr R M. apply idreach_ok in Hr. destruct Hr as [Hok Hth]. rewrite Forall_forall in Hth.
    destruct (Hth _ R) as (n & N & E). rewrite (means_fun _ _ _ _ N M) in E.
    unfold IsReserved. rewrite Z.ltb_lt. unfold entries in E. apply in_app_or in E. destruct E as [E|E];
      apply in_map_iff in E; destruct E as ([w j] & E0 & E); injection E0 as <- <-; cbn [fst snd] in *.
    - pose proof (ok_pos t Hok _ _ E). split; [lia|]. intros (w' & [=] & _).
    - rewrite (keywords_reserved w j E). split.
      + intros H. now exists w.
      + now intros (w' & [= <-] & H).
  Qed.

  Lemma keyword_any_case s w :
    CaseLib_ok L -> In w (reserved_words ++ nonreserved_words) -> same_but_case s w ->
    means s false (Keyword w).
  Proof.
    intros (U0 & _ & U & _) Hw E.
    destruct (keywords_upper w (proj2 (keywords_words w) Hw)) as (H1 & H2 & H3).
    assert (length s = length w) as Hl.
    { unfold same_but_case in E. apply (f_equal (@length byte)) in E. now rewrite !map_length in E. }
    apply means_keyword; [|exact Hw].
    rewrite firstn_all2 by lia. rewrite <- U. unfold same_but_case in E. rewrite E, U, U0 by exact H2. exact H1.
  Qed.

  (** ** Serialisation *)

  Lemma gob_lemma t ths s q i m :
    CaseLib_ok L -> idreach (t, ths) -> returned ths s q i -> means s q m ->
    (forall w, m = Keyword w -> In w reserved_words) ->
    (length (meaning_text m) <= 128)%nat ->
    idGobDecode t (idGobEncode t i) = Some (t, i).
  Proof.
    intros HL Hr R M Hres Hlen.
    pose proof (reserved_lemma t ths s q i m Hr R M) as Hir.
    pose proof (string_lemma t ths s q i m Hr R M) as Hs.
    apply idreach_ok in Hr. destruct Hr as [Hok Hth]. rewrite Forall_forall in Hth.
    destruct (Hth _ R) as (n & N & E). rewrite (means_fun _ _ _ _ N M) in E. clear n N.
    unfold idGobEncode, idGobDecode. rewrite Hs.
    assert (forall q', (m = Name (meaning_text m) /\ q' = true) \/ (m = Keyword (meaning_text m) /\ q' = false) ->
      ID t (meaning_text m) q' = (t, i)) as HID.
    { intros q' Hq'.
      assert (means (meaning_text m) q' m) as M'.
      { destruct m as [w|w]; cbn [meaning_text] in *; destruct Hq' as [[[=] ->]|[[=] ->]].
        - apply keyword_any_case; [exact HL| |reflexivity]. apply in_or_app. left. now apply Hres.
        - replace w with (firstn 128 w) at 2 by now apply firstn_all2. constructor. }
      destruct (ID t (meaning_text m) q') as [t' j] eqn:EI.
      destruct (ID_spec _ _ _ _ _ _ Hok M' EI) as (J1 & J2 & J3 & J4).
      assert (t' = t) as -> by (apply J4, in_map_iff; now exists (m, i)).
      f_equal. exact (entries_id_unique t m j i Hok J3 E). }
    destruct (IsReserved i) eqn:Ei.
    - change (1 <? bz x01) with false. change (bz x01 =? 0) with false. cbv iota.
      f_equal. apply HID. right. destruct (proj1 Hir eq_refl) as (w & -> & _). now split.
    - change (1 <? bz x00) with false. change (bz x00 =? 0) with true. cbv iota.
      f_equal. apply HID. left. destruct m as [w|w]; [|now split].
      assert (false = true); [|discriminate]. apply Hir. exists w. split; [reflexivity|]. now apply Hres.
  Qed.

  Lemma gob_nonreserved_lemma t ths s q i w t' j :
    CaseLib_ok L -> idreach (t, ths) -> returned ths s q i -> means s q (Keyword w) ->
    ~ In w reserved_words ->
    idGobDecode t (idGobEncode t i) = Some (t', j) -> j <> i.
  Proof.
    intros HL Hr R M Hres E.
    pose proof (reserved_lemma t ths s q i _ Hr R M) as Hir.
    pose proof (string_lemma t ths s q i _ Hr R M) as Hs.
    apply idreach_ok in Hr. destruct Hr as [Hok Hth]. rewrite Forall_forall in Hth.
    destruct (Hth _ R) as (n & N & En). rewrite (means_fun _ _ _ _ N M) in En. clear n N.
    unfold idGobEncode, idGobDecode in E. rewrite Hs in E. cbn [meaning_text] in E.
    destruct (IsReserved i) eqn:Ei.
    { destruct (proj1 Hir eq_refl) as (w' & [= <-] & H). tauto. }
    change (1 <? bz x00) with false in E. change (bz x00 =? 0) with true in E. cbv iota in E.
    injection E as E.
    destruct (ID_spec _ _ _ _ _ _ Hok (means_quoted w) E) as (J1 & J2 & J3 & J4).
    intros ->. apply J2 in En. pose proof (entries_meaning_unique _ _ _ _ J1 En J3). discriminate.
  Qed.
End Lib.

(** The lower case of U+023A (two bytes) is U+2C65 (three bytes): a name that
    is within the limit when it is written is cut when it is read back. *)
Definition long_upper : bytes := concat (repeat [xc8; xba] 64).
Definition long_lower : bytes := concat (repeat [xe2; xb1; xa5] 64).

Lemma gob_long_lemma (L : CaseLib) :
  CaseLib_ok L -> x_to_lower long_upper = long_lower -> x_to_upper long_upper = long_upper ->
  exists t ths i, idreach (t, ths) /\ returned ths long_upper false i /\
    idString t i = long_lower /\
    exists t' j, idGobDecode t (idGobEncode t i) = Some (t', j) /\ j <> i.
Proof.
  intros HL Hlow Hup.
  assert (firstn 128 long_upper = long_upper) as F by (vm_compute; reflexivity).
  assert (means long_upper false (Name long_lower)) as M.
  { pose proof (means_name long_upper) as P. rewrite F, Hup, Hlow in P. apply P.
    rewrite <- mem_bytes_In. vm_compute. discriminate. }
  destruct (ID idt_init long_upper false) as [t i] eqn:E.
  destruct (ID_sequential _ [] _ _ _ _ idreach_init E) as (ths & Hr & R & _).
  exists t, ths, i. split; [exact Hr|]. split; [exact R|].
  pose proof (string_lemma t ths _ _ _ _ Hr R M) as Hs. cbn [meaning_text] in Hs.
  split; [exact Hs|].
  pose proof (reserved_lemma t ths _ _ _ _ Hr R M) as Hir.
  assert (IsReserved i = false) as Ei.
  { destruct (IsReserved i); [|reflexivity]. destruct (proj1 Hir eq_refl) as (w & [=] & _). }
  unfold idGobEncode, idGobDecode. rewrite Ei, Hs.
  change (1 <? bz x00) with false. change (bz x00 =? 0) with true. cbv iota.
  destruct (ID t long_lower true) as [t' j] eqn:EI. exists t', j. split; [reflexivity|].
  apply idreach_ok in Hr. destruct Hr as [Hok Hth]. rewrite Forall_forall in Hth.
  destruct (Hth _ R) as (n & N & En). rewrite (means_fun _ _ _ _ N M) in En.
  destruct (ID_spec _ _ _ _ _ _ Hok (means_quoted long_lower) EI) as (J1 & J2 & J3 & J4).
  intros ->. apply J2 in En. pose proof (entries_meaning_unique _ _ _ _ J1 En J3) as H.
  injection H as H. apply (f_equal (@length byte)) in H. vm_compute in H. discriminate.
Qed.

(** ASCII case mapping as an instance for the examples. *)
Definition CaseLib_ascii : CaseLib := {|
  x_to_upper := map ascii_upper;
  x_to_lower := map ascii_lower
|}.

Lemma CaseLib_ascii_ok : CaseLib_ok CaseLib_ascii.
Proof.
  assert (forall b, ascii_upper (ascii_lower b) = ascii_upper b) as H1 by (intros []; reflexivity).
  assert (forall b, ascii_lower (ascii_lower b) = ascii_lower b) as H2 by (intros []; reflexivity).
  split; [reflexivity|]. split; [reflexivity|]. cbn. split; intros s; rewrite map_map;
    apply map_ext; auto.
Qed.

Lemma stable_lemma (L : CaseLib) c c' s q i :
  idreach c -> Relation_Operators.clos_refl_trans _ idstep c c' -> returned (snd c) s q i ->
  returned (snd c') s q i /\ idString (fst c') i = idString (fst c) i.
Proof.
  intros Hr Hs R.
  assert (idreach c' /\ returned (snd c') s q i) as [Hr' R'].
  { revert Hr R. induction Hs as [c c' Hs|c|c1 c2 c3 H1 IH1 H2 IH2]; intros Hr R.
    - split; [now apply (idreach_step c)|]. now apply (returned_stays c).
    - now split.
    - destruct (IH1 Hr R) as [Hr2 R2]. now apply IH2. }
  split; [exact R'|]. destruct (means_total s q) as [m M].
  destruct c as [t ths], c' as [t' ths']. cbn [fst snd] in *.
  now rewrite (string_lemma t ths s q i m Hr R M), (string_lemma t' ths' s q i m Hr' R' M).
Qed.
