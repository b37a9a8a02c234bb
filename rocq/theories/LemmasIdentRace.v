(** Goroutines that are interrupted anywhere do what they would do if the sections
    under the mutex were single steps. *)

From Verif Require Import ModelIdentRace SpecIdentRace LemmasBase LemmasIdent.

Inductive hold : Set := Free | Reads | Writes.
Definition is_reads (v : hold * list idthread) : bool := match fst v with Reads => true | _ => false end.
Definition is_writes (v : hold * list idthread) : bool := match fst v with Writes => true | _ => false end.
Definition number_of (f : hold * list idthread -> bool) (vs : list (hold * list idthread)) : nat := length (filter f vs).
Lemma number_app f a b : number_of f (a ++ b) = (number_of f a + number_of f b)%nat.
Proof. unfold number_of. now rewrite filter_app, app_length. Qed.
Lemma number_cons f v vs : number_of f (v :: vs) = ((if f v then 1 else 0) + number_of f vs)%nat.
Proof. unfold number_of. cbn [filter]. now destruct (f v). Qed.

Section Race.
  Context {L : CaseLib}.

  Definition word_of (s : bytes) (q : bool) : option Z := if q then None else lookup_bytes keywords (x_to_upper (truncID s)).
  Definition name_of (s : bytes) (q : bool) : bytes := if q then truncID s else x_to_lower (truncID s).

  (** What follows in the two sections. *)
  Definition after_write (o : option Z) : mcode := MUnlock (MReturn (match o with Some id => id | None => 0 end)).
  Definition write_code (s : bytes) (q : bool) : mcode := lookupCode (truncID s) q true after_write.
  Definition after_read (s : bytes) (q : bool) (o : option Z) : mcode :=
    MRUnlock match o with Some id => MReturn id | None => MLock (write_code s q) end.
  Definition create3 (s : bytes) (q : bool) : mcode := MLast (fun i => after_write (Some i)).
  Definition create2 (s : bytes) (q : bool) : mcode := MLast (fun i => MSetName i (name_of s q) (create3 s q)).
  Definition create1 (s : bytes) (q : bool) : mcode := MLast (fun i => MSetId (name_of s q) i (create2 s q)).
  Definition create (s : bytes) (q : bool) : mcode := MLastAdd (create1 s q).
  Definition found2 (s : bytes) (q : bool) (o : option Z) : mcode := match o with Some id => after_write (Some id) | None => create s q end.

  Lemma read_code s q : IDCode s q = MRLock (match word_of s q with Some id => after_read s q (Some id)
    | None => MFind (name_of s q) (fun o => match o with Some id => after_read s q (Some id) | None => after_read s q None end) end).
  Proof.
    change (IDCode s q) with (MRLock (lookupCode (truncID s) q false (after_read s q))). unfold lookupCode, word_of, name_of. destruct q; [reflexivity|]. now destruct (lookup_bytes keywords _).
  Qed.
  Lemma write_code_eq s q : write_code s q = match word_of s q with Some id => after_write (Some id) | None => MFind (name_of s q) (found2 s q) end.
  Proof. unfold write_code, lookupCode, word_of, name_of. destruct q; [reflexivity|]. now destruct (lookup_bytes keywords _). Qed.
  Lemma lookup_eq t s q c : lookupID t (truncID s) q c = match word_of s q with Some id => (t, Some id) | None =>
    match lookup_bytes (idt_ids t) (name_of s q) with Some id => (t, Some id) | None =>
      if c then ({| idt_ids := (name_of s q, idt_last t + 1) :: idt_ids t; idt_names := (idt_last t + 1, name_of s q) :: idt_names t; idt_last := idt_last t + 1 |}, Some (idt_last t + 1)) else (t, None) end end.
  Proof. unfold lookupID, word_of, name_of. destruct q; [reflexivity|]. now destruct (lookup_bytes keywords _). Qed.

  (** Where a goroutine is, given the variables before the section of the one that
      writes, and as they are. *)
  Inductive point (t0 t : idtable) : mthread -> hold * list idthread -> Prop :=
  | p_start s q : point t0 t {| mt_call := CallID s q; mt_code := IDCode s q; mt_busy := false |} (Free, [TStart s q])
  | p_find s q b : word_of s q = None ->
      point t0 t {| mt_call := CallID s q; mt_code := MFind (name_of s q) (fun o => match o with Some id => after_read s q (Some id) | None => after_read s q None end); mt_busy := b |} (Reads, [TStart s q])
  | p_found s q o : lookupID t0 (truncID s) q false = (t0, o) ->
      point t0 t {| mt_call := CallID s q; mt_code := after_read s q o; mt_busy := false |} (Reads, [TStart s q])
  | p_done s q id : point t0 t {| mt_call := CallID s q; mt_code := MReturn id; mt_busy := false |} (Free, [TDone s q id])
  | p_miss s q : point t0 t {| mt_call := CallID s q; mt_code := MLock (write_code s q); mt_busy := false |} (Free, [TMiss s q])
  | p_find2 s q b : word_of s q = None -> t = t0 ->
      point t0 t {| mt_call := CallID s q; mt_code := MFind (name_of s q) (found2 s q); mt_busy := b |} (Writes, [TMiss s q])
  | p_create s q b : word_of s q = None -> lookup_bytes (idt_ids t0) (name_of s q) = None -> t = t0 ->
      point t0 t {| mt_call := CallID s q; mt_code := create s q; mt_busy := b |} (Writes, [TMiss s q])
  | p_create1 s q b : word_of s q = None -> lookup_bytes (idt_ids t0) (name_of s q) = None ->
      t = {| idt_ids := idt_ids t0; idt_names := idt_names t0; idt_last := idt_last t0 + 1 |} ->
      point t0 t {| mt_call := CallID s q; mt_code := create1 s q; mt_busy := b |} (Writes, [TMiss s q])
  | p_set1 s q b : word_of s q = None -> lookup_bytes (idt_ids t0) (name_of s q) = None ->
      t = {| idt_ids := idt_ids t0; idt_names := idt_names t0; idt_last := idt_last t0 + 1 |} ->
      point t0 t {| mt_call := CallID s q; mt_code := MSetId (name_of s q) (idt_last t0 + 1) (create2 s q); mt_busy := b |} (Writes, [TMiss s q])
  | p_create2 s q b : word_of s q = None -> lookup_bytes (idt_ids t0) (name_of s q) = None ->
      t = {| idt_ids := (name_of s q, idt_last t0 + 1) :: idt_ids t0; idt_names := idt_names t0; idt_last := idt_last t0 + 1 |} ->
      point t0 t {| mt_call := CallID s q; mt_code := create2 s q; mt_busy := b |} (Writes, [TMiss s q])
  | p_set2 s q b : word_of s q = None -> lookup_bytes (idt_ids t0) (name_of s q) = None ->
      t = {| idt_ids := (name_of s q, idt_last t0 + 1) :: idt_ids t0; idt_names := idt_names t0; idt_last := idt_last t0 + 1 |} ->
      point t0 t {| mt_call := CallID s q; mt_code := MSetName (idt_last t0 + 1) (name_of s q) (create3 s q); mt_busy := b |} (Writes, [TMiss s q])
  | p_create3 s q b : word_of s q = None -> lookup_bytes (idt_ids t0) (name_of s q) = None ->
      t = {| idt_ids := (name_of s q, idt_last t0 + 1) :: idt_ids t0; idt_names := (idt_last t0 + 1, name_of s q) :: idt_names t0; idt_last := idt_last t0 + 1 |} ->
      point t0 t {| mt_call := CallID s q; mt_code := create3 s q; mt_busy := b |} (Writes, [TMiss s q])
  | p_written s q o : lookupID t0 (truncID s) q true = (t, o) ->
      point t0 t {| mt_call := CallID s q; mt_code := after_write o; mt_busy := false |} (Writes, [TMiss s q])
  | p_get i b : point t0 t {| mt_call := CallString i; mt_code := StringCode i; mt_busy := b |} (Free, [])
  | p_text i s : point t0 t {| mt_call := CallString i; mt_code := MText s; mt_busy := false |} (Free, []).

  Lemma point_frame t0 t t' th v : fst v <> Writes -> point t0 t th v -> point t0 t' th v.
  Proof. intros N H. destruct H; try (now contradiction N); econstructor; eassumption. Qed.
  Lemma point_free t0 t t0' t' th v : fst v = Free -> point t0 t th v -> point t0' t' th v.
  Proof. intros N H. destruct H; try discriminate N; econstructor; eassumption. Qed.

  (** The invariant. *)
  Definition told (st : mstate) (t0 : idtable) (vs : list (hold * list idthread)) : Prop :=
    Forall2 (point t0 (ms_table st)) (ms_threads st) vs /\
    number_of is_reads vs = ms_readers st /\
    (ms_writer st = false /\ number_of is_writes vs = 0%nat /\ ms_table st = t0 \/
     ms_writer st = true /\ number_of is_writes vs = 1%nat /\ ms_readers st = 0%nat) /\
    idreach (t0, flat_map snd vs).

  Lemma none_of f vs : number_of f vs = 0%nat -> Forall (fun v => f v = false) vs.
  Proof. induction vs as [|v vs IH]; [constructor|]. rewrite number_cons. intros H. destruct (f v) eqn:E; [discriminate|]. constructor; [exact E|now apply IH]. Qed.
  Lemma not_writes v : is_writes v = false -> fst v <> Writes.
  Proof. unfold is_writes. intros H E. rewrite E in H. discriminate. Qed.
  Lemma is_free v : is_writes v = false -> is_reads v = false -> fst v = Free.
  Proof. unfold is_writes, is_reads. destruct (fst v); [reflexivity|discriminate..]. Qed.
  Lemma frame_all t0 t t' ths vs : number_of is_writes vs = 0%nat -> Forall2 (point t0 t) ths vs -> Forall2 (point t0 t') ths vs.
  Proof. intros N H. apply none_of in N. induction H; inversion N; subst; constructor; auto. eapply point_frame; [now apply not_writes|eassumption]. Qed.
  Lemma free_all t0 t t0' t' ths vs : number_of is_writes vs = 0%nat -> number_of is_reads vs = 0%nat -> Forall2 (point t0 t) ths vs -> Forall2 (point t0' t') ths vs.
  Proof. intros N M H. apply none_of in N. apply none_of in M. induction H; inversion N; inversion M; subst; constructor; auto. eapply point_free; [now apply is_free|eassumption]. Qed.

  Lemma coarse_run t0 a th b t' th' : idreach (t0, a ++ [th] ++ b) -> idThreadStep t0 th = (t', th') -> idreach (t', a ++ [th'] ++ b).
  Proof. intros H E. eapply idreach_step; [exact H|]. cbn [app]. now constructor. Qed.

  Ltac counts H := rewrite ?number_app, ?number_cons in H |- *; cbn [is_reads is_writes fst] in H |- *.

  Lemma told_step st st' : (exists t0 vs, told st t0 vs) -> mstep st st' -> exists t0 vs, told st' t0 vs.
  Proof.
    intros (t0 & vs & HP & HR & HW & HC) H. destruct H as [t r w ths c|t r w ths1 th ths2 t' r' w' th' H].
    - (* a call *) unfold told in *. cbn [ms_table ms_readers ms_writer ms_threads] in *. destruct c as [s q|i].
      + exists t0, (vs ++ [(Free, [TStart s q])]). rewrite !number_app, flat_map_app. cbn [flat_map snd app]. rewrite !number_cons. cbn [is_reads is_writes fst number_of filter length]. rewrite !Nat.add_0_r.
        split; [apply Forall2_app; [exact HP|constructor; [constructor|constructor]]|]. split; [exact HR|]. split; [exact HW|].
        eapply idreach_step; [exact HC|constructor].
      + exists t0, (vs ++ [(Free, [])]). rewrite !number_app, flat_map_app. cbn [flat_map snd app]. rewrite !number_cons. cbn [is_reads is_writes fst number_of filter length]. rewrite !Nat.add_0_r, !app_nil_r.
        split; [apply Forall2_app; [exact HP|constructor; [apply (p_get t0 t i false)|constructor]]|]. split; [exact HR|]. now split.
    - (* a step *) unfold told in *. cbn [ms_table ms_readers ms_writer ms_threads] in *.
      apply Forall2_app_inv_l in HP. destruct HP as (vs1 & vs' & P1 & P' & ->). destruct vs' as [|v vs2]; [inversion P'|].
      assert (PT : point t0 t th v) by (inversion P'; assumption). assert (P2 : Forall2 (point t0 t) ths2 vs2) by (inversion P'; assumption). clear P'.
      rewrite !number_app, !number_cons in HR, HW. rewrite flat_map_app in HC. cbn [flat_map] in HC.
      (* what is to be shown when the variables and the lock stay *)
      assert (SAME : forall th' v', point t0 t th' v' -> fst v' = fst v -> snd v' = snd v ->
        exists t0' vs', Forall2 (point t0' t) (ths1 ++ th' :: ths2) vs' /\ number_of is_reads vs' = r /\
          (w = false /\ number_of is_writes vs' = 0%nat /\ t = t0' \/ w = true /\ number_of is_writes vs' = 1%nat /\ r = 0%nat) /\ idreach (t0', flat_map snd vs')).
      { intros th2 [h a] PV E1 E2. destruct v as [h' a']. cbn [fst snd] in E1, E2. subst h a. exists t0, (vs1 ++ (h', a') :: vs2). rewrite !number_app, !number_cons, flat_map_app. cbn [flat_map].
        split; [apply Forall2_app; [exact P1|now constructor]|]. split; [exact HR|]. split; [exact HW|exact HC]. }
      (* and when the one that writes goes on *)
      assert (ONLY : fst v = Writes -> number_of is_writes vs1 = 0%nat /\ number_of is_writes vs2 = 0%nat /\ number_of is_reads vs1 = 0%nat /\ number_of is_reads vs2 = 0%nat /\ w = true /\ r = 0%nat).
      { intros E. assert (EW : is_writes v = true) by (unfold is_writes; now rewrite E). assert (EN : is_reads v = false) by (unfold is_reads; now rewrite E). rewrite EW in HW. rewrite EN in HR. destruct HW as [(_ & K & _)|(K1 & K2 & K3)]; lia. }
      assert (GOES : forall t' th' a, fst v = Writes -> snd v = a -> point t0 t' th' (Writes, a) ->
        exists t0' vs', Forall2 (point t0' t') (ths1 ++ th' :: ths2) vs' /\ number_of is_reads vs' = r /\
          (w = false /\ number_of is_writes vs' = 0%nat /\ t' = t0' \/ w = true /\ number_of is_writes vs' = 1%nat /\ r = 0%nat) /\ idreach (t0', flat_map snd vs')).
      { intros t2 th2 a E1 E2 PV. destruct (ONLY E1) as (N1 & N2 & M1 & M2 & -> & ->). destruct v as [h a']. cbn [fst snd] in *. subst h a. exists t0, (vs1 ++ (Writes, a') :: vs2). rewrite !number_app, !number_cons, flat_map_app. cbn [flat_map is_writes is_reads fst].
        split; [apply Forall2_app; [now apply frame_all with (t := t)|constructor; [exact PV|now apply frame_all with (t := t)]]|]. split; [lia|]. split; [right; lia|exact HC]. }
      remember (t, r, w, th) as x1 eqn:X1. remember (t', r', w', th') as x2 eqn:X2. destruct H as [t1 r1 w1 c k r2 w2 k' E|t1 r1 w1 c k x E|t1 r1 w1 c k t2 k' E]; injection X1 as -> -> -> <-; injection X2 as <- <- <- <-.
      + (* the mutex *) remember {| mt_call := c; mt_code := k; mt_busy := _ |} as th0 eqn:X0 in PT; destruct PT; try discriminate X0; injection X0 as <- <-; cbn [mutexStep create create1 create2 create3 StringCode] in E; try discriminate.
        * (* RLock *) rewrite read_code in E. cbn [mutexStep] in E. destruct w; [discriminate|]. injection E as <- <- <-. destruct HW as [(_ & HW & ->)|(K & _)]; [|discriminate]. cbn [fst snd is_reads is_writes] in *.
          exists t0, (vs1 ++ (Reads, [TStart s q]) :: vs2). rewrite !number_app, !number_cons, flat_map_app. cbn [flat_map is_writes is_reads fst snd].
          split; [apply Forall2_app; [exact P1|constructor; [|exact P2]]|]. 2: { split; [lia|]. split; [left; split; [reflexivity|]; split; [lia|reflexivity]|exact HC]. }
          destruct (word_of s q) as [id|] eqn:EK; [|now apply p_find]. apply p_found. now rewrite lookup_eq, EK.
        * (* RUnlock *) cbn [after_read mutexStep] in E. injection E as <- <- <-. cbn [fst snd is_reads is_writes] in *. destruct HW as [(-> & HW & ->)|(-> & HW & ->)]; [|lia].
          match goal with K : lookupID t0 _ _ _ = _ |- _ => rename K into EL end.
          exists t0, (vs1 ++ (Free, [match o with Some id => TDone s q id | None => TMiss s q end]) :: vs2). rewrite !number_app, !number_cons, flat_map_app. cbn [flat_map is_writes is_reads fst snd].
          split; [apply Forall2_app; [exact P1|constructor; [destruct o; constructor|exact P2]]|]. split; [lia|]. split; [left; split; [reflexivity|]; split; [lia|reflexivity]|].
          eapply coarse_run; [exact HC|]. cbn [idThreadStep]. rewrite EL. now destruct o.
        * (* Lock *) cbn [mutexStep] in E. destruct w; [discriminate|]. destruct r; [|discriminate]. injection E as <- <- <-. destruct HW as [(_ & HW & ->)|(K & _)]; [|discriminate]. cbn [fst snd is_reads is_writes] in *.
          exists t0, (vs1 ++ (Writes, [TMiss s q]) :: vs2). rewrite !number_app, !number_cons, flat_map_app. cbn [flat_map is_writes is_reads fst snd].
          split; [apply Forall2_app; [exact P1|constructor; [|exact P2]]|]. 2: { split; [lia|]. split; [right; split; [reflexivity|]; split; [lia|reflexivity]|exact HC]. }
          rewrite write_code_eq. destruct (word_of s q) as [id|] eqn:EK; [|now apply p_find2]. apply p_written. now rewrite lookup_eq, EK.
        * (* Unlock *) cbn [after_write mutexStep] in E. injection E as <- <- <-. destruct (ONLY eq_refl) as (N1 & N2 & M1 & M2 & -> & ->). cbn [fst snd is_reads is_writes] in *.
          match goal with K : lookupID t0 _ _ _ = _ |- _ => rename K into EL end.
          exists t, (vs1 ++ (Free, [TDone s q (match o with Some id => id | None => 0 end)]) :: vs2). rewrite !number_app, !number_cons, flat_map_app. cbn [flat_map is_writes is_reads fst snd].
          split; [apply Forall2_app; [now apply free_all with (t0 := t0) (t := t)|constructor; [constructor|now apply free_all with (t0 := t0) (t := t)]]|]. split; [lia|]. split; [left; split; [reflexivity|]; split; [lia|reflexivity]|].
          eapply coarse_run; [exact HC|]. cbn [idThreadStep]. rewrite EL. now destruct o.
      + (* an access begins *) remember {| mt_call := c; mt_code := k; mt_busy := _ |} as th0 eqn:X0 in PT; destruct PT; try discriminate X0; injection X0 as <- <-; cbn [performed create create1 create2 create3 StringCode after_read after_write] in E; try discriminate.
        all: eapply SAME; [|reflexivity|reflexivity].
        all: try (rewrite read_code in E; discriminate).
        all: econstructor; eassumption || reflexivity.
      + (* an access ends *) remember {| mt_call := c; mt_code := k; mt_busy := _ |} as th0 eqn:X0 in PT; destruct PT; try discriminate X0; injection X0 as <- <-; cbn [performed create create1 create2 create3 StringCode after_read after_write] in E; try discriminate; injection E as <- <-.
        * (* reading *) eapply SAME; [|reflexivity|reflexivity]. destruct HW as [(-> & HW & ->)|(-> & HW & ->)]; [|cbn in HR; lia].
          match goal with |- point _ _ {| mt_call := _; mt_code := ?c; mt_busy := _ |} _ => replace c with (after_read s q (lookup_bytes (idt_ids t0) (name_of s q))) by now destruct (lookup_bytes _ _) end.
          apply p_found. match goal with K : word_of s q = None |- _ => rewrite lookup_eq, K end. now destruct (lookup_bytes _ _).
        * eapply GOES; [reflexivity|reflexivity|]. rewrite H0. destruct (lookup_bytes (idt_ids t0) (name_of s q)) as [id|] eqn:EF; cbn [found2].
          -- apply p_written. match goal with K : word_of s q = None |- _ => now rewrite lookup_eq, K, EF end.
          -- now apply p_create.
        * eapply GOES; [reflexivity|reflexivity|]. rewrite H1. now apply p_create1.
        * eapply GOES; [reflexivity|reflexivity|]. rewrite H1. now apply p_set1.
        * eapply GOES; [reflexivity|reflexivity|]. rewrite H1. now apply p_create2.
        * eapply GOES; [reflexivity|reflexivity|]. rewrite H1. now apply p_set2.
        * eapply GOES; [reflexivity|reflexivity|]. rewrite H1. now apply p_create3.
        * eapply GOES; [reflexivity|reflexivity|]. rewrite H1. apply p_written. match goal with K : word_of s q = None, K' : lookup_bytes _ _ = None |- _ => now rewrite lookup_eq, K, K' end.
        * eapply SAME; [|reflexivity|reflexivity]. constructor.
  Qed.

  Lemma told_reach st : mreach st -> exists t0 vs, told st t0 vs.
  Proof.
    induction 1 as [|c c' _ IH H]; [|now apply told_step with c].
    exists idt_init, []. split; [constructor|]. split; [reflexivity|]. split; [left; now split|constructor].
  Qed.

  (** ** What follows *)

  Lemma view_at (P : mthread -> hold * list idthread -> Prop) ths vs i th : Forall2 P ths vs -> nth_error ths i = Some th -> exists v, nth_error vs i = Some v /\ P th v.
  Proof. intros H. revert i. induction H as [|x v ths vs H1 H2 IH]; intros [|i] E; try discriminate; cbn [nth_error] in *; [injection E as <-; eauto|now apply IH]. Qed.
  Lemma number_at f vs i v : nth_error vs i = Some v -> f v = true -> (1 <= number_of f vs)%nat.
  Proof. revert i. induction vs as [|x vs IH]; intros [|i] E F; try discriminate; cbn [nth_error] in E; rewrite number_cons; [injection E as ->; rewrite F; lia|]. specialize (IH i E F). lia. Qed.
  Lemma number_two f vs i j v v' : i <> j -> nth_error vs i = Some v -> f v = true -> nth_error vs j = Some v' -> f v' = true -> (2 <= number_of f vs)%nat.
  Proof.
    revert i j. induction vs as [|x vs IH]; intros [|i] [|j] N E F E' F'; try discriminate; try congruence; cbn [nth_error] in *; rewrite number_cons.
    - injection E as ->. rewrite F. pose proof (number_at f vs j v' E' F'). lia.
    - injection E' as ->. rewrite F'. pose proof (number_at f vs i v E F). lia.
    - assert (i <> j) by congruence. specialize (IH i j H E F E' F'). lia.
  Qed.

  Lemma race_only st i j v : mreach st -> races st i j v ->
    v = Names /\ (exists a s q, nth_error (ms_threads st) i = Some a /\ mt_call a = CallID s q) /\ (exists b n, nth_error (ms_threads st) j = Some b /\ mt_call b = CallString n).
  Proof.
    intros H (N & a & b & w & Ha & Hb & Aa & Ab). destruct (told_reach _ H) as (t0 & vs & HP & HR & HW & _).
    destruct (view_at _ _ _ _ _ HP Ha) as (va & Va & Pa). destruct (view_at _ _ _ _ _ HP Hb) as (vb & Vb & Pb).
    assert (Ka : is_writes va = true /\ exists s q, mt_call a = CallID s q).
    { unfold accessing in Aa. destruct Pa; cbn [mt_busy mt_code after_read after_write StringCode create create1 create2 create3] in Aa; try discriminate Aa; try (destruct b0; discriminate Aa); try (split; [reflexivity|cbn; eauto]). }
    destruct Ka as [Ka (s & q & Ca)]. pose proof (number_at _ _ _ _ Va Ka) as Na. destruct HW as [(_ & K & _)|(_ & K1 & K2)]; [lia|].
    assert (Kb : v = Names /\ exists n, mt_call b = CallString n).
    { assert (FB : is_writes vb = true -> False) by (intros F; pose proof (number_two is_writes vs i j va vb N Va Ka Vb F); lia).
      assert (FR : is_reads vb = true -> False) by (intros F; pose proof (number_at is_reads vs j vb Vb F); lia).
      unfold accessing in Ab. destruct Pb; cbn [mt_busy mt_code] in Ab; try (now contradiction FB); try (now contradiction FR); try discriminate Ab.
      destruct b; [|discriminate]. cbn [StringCode] in Ab. injection Ab as <- _. split; [reflexivity|cbn; eauto]. }
    destruct Kb as [-> (n & Cb)]. split; [reflexivity|]. split; [exists a, s, q; now split|exists b, n; now split].
  Qed.

  Lemma gave_views t0 t ths vs s q i : Forall2 (point t0 t) ths vs ->
    ((exists b, In {| mt_call := CallID s q; mt_code := MReturn i; mt_busy := b |} ths) <-> returned (flat_map snd vs) s q i).
  Proof.
    unfold returned. induction 1 as [|th v ths vs H1 H2 IH]; [split; [intros (b & [])|intros []]|]. cbn [flat_map]. rewrite in_app_iff, <- IH. clear IH. split.
    - intros (b & [->|Hi]); [|right; now exists b]. left. inversion H1; subst; try (now left).
    - intros [Hi|(b & Hb)]; [|exists b; now right]. destruct H1; cbn [snd] in Hi; try contradiction; destruct Hi as [Hi|[]]; try discriminate. injection Hi as -> -> ->. exists false. now left.
  Qed.

  Lemma refines st : mreach st -> exists t0 ths, idreach (t0, ths) /\ (forall s q i, gave st s q i <-> returned ths s q i) /\ (ms_writer st = false -> ms_table st = t0).
  Proof.
    intros H. destruct (told_reach _ H) as (t0 & vs & HP & HR & HW & HC). exists t0, (flat_map snd vs). split; [exact HC|]. split.
    - intros s q i. exact (gave_views _ _ _ _ s q i HP).
    - intros E. destruct HW as [(_ & _ & K)|(K & _)]; [exact K|congruence].
  Qed.

  Lemma fine_interning st s1 q1 i1 s2 q2 i2 m1 m2 : mreach st -> gave st s1 q1 i1 -> gave st s2 q2 i2 -> means s1 q1 m1 -> means s2 q2 m2 -> (i1 = i2 <-> m1 = m2).
  Proof. intros H G1 G2. destruct (refines _ H) as (t0 & ths & HC & HG & _). apply HG in G1. apply HG in G2. exact (interning_lemma t0 ths s1 q1 i1 s2 q2 i2 m1 m2 HC G1 G2). Qed.

  (** The variables are those before the section of the writer or those behind it, as
      far as the names go. *)
  Lemma names_between t0 t vs ths : Forall2 (point t0 t) ths vs -> number_of is_writes vs = 1%nat ->
    idt_names t = idt_names t0 \/ exists ths1 s q th ths2, flat_map snd vs = ths1 ++ TMiss s q :: ths2 /\ idThreadStep t0 (TMiss s q) = (t, th).
  Proof.
    induction 1 as [|th v ths vs H1 H2 IH]; [discriminate|]. rewrite number_cons. destruct (is_writes v) eqn:E; intros N.
    - clear IH. destruct H1; try discriminate E; subst; try (now left).
      all: right; exists [], s, q; cbn [flat_map snd app idThreadStep].
      + rewrite lookup_eq. match goal with K : word_of _ _ = None, K' : lookup_bytes _ _ = None |- _ => rewrite K, K' end. eexists; exists (flat_map snd vs). split; reflexivity.
      + match goal with K : lookupID _ _ _ _ = _ |- _ => rewrite K end. destruct o; eexists; exists (flat_map snd vs); split; reflexivity.
    - destruct (IH N) as [K|(ths1 & s & q & th' & ths2 & K1 & K2)]; [now left|]. right. exists (snd v ++ ths1), s, q, th', ths2. cbn [flat_map]. rewrite K1, <- app_assoc. now split.
  Qed.

  Lemma fine_names st s q i m : mreach st -> gave st s q i -> means s q m -> idString (ms_table st) i = meaning_text m.
  Proof.
    intros H G M. destruct (told_reach _ H) as (t0 & vs & HP & HR & HW & HC). apply (gave_views _ _ _ _ s q i HP) in G.
    pose proof (string_lemma _ _ _ _ _ _ HC G M) as K0. destruct HW as [(_ & _ & ->)|(_ & N & _)]; [exact K0|].
    destruct (names_between _ _ _ _ HP N) as [E|(ths1 & s' & q' & th & ths2 & E1 & E2)]; [unfold idString in *; now rewrite E|].
    apply (string_lemma (ms_table st) (ths1 ++ th :: ths2) s q i m); [| |exact M].
    - rewrite E1 in HC. eapply idreach_step; [exact HC|]. now constructor.
    - unfold returned in *. rewrite E1 in G. apply in_app_or in G. apply in_or_app. destruct G as [G|[G|G]]; [now left|discriminate|right; now right].
  Qed.

  (** Later the same holds. *)
  Lemma steps_reach st st' : mreach st -> msteps st st' -> mreach st'.
  Proof. intros H K. induction K as [|st st' st2 K IH S]; [exact H|]. exact (mreach_step _ _ (IH H) S). Qed.
  Lemma gave_step st st' s q i : gave st s q i -> mstep st st' -> gave st' s q i.
  Proof.
    intros (b & G) H. exists b. destruct H as [t r w ths c|t r w ths1 th ths2 t' r' w' th' H]; cbn [ms_threads] in *; [apply in_or_app; now left|].
    apply in_app_or in G. apply in_or_app. destruct G as [G|[->|G]]; [now left| |right; now right]. inversion H; subst; discriminate.
  Qed.
  Lemma later_text st s q i m : mreach st -> gave st s q i -> means s q m -> forall st', msteps st st' -> gave st' s q i /\
    (length (ms_threads st) <= length (ms_threads st'))%nat /\
    forall n th, (length (ms_threads st) <= n)%nat -> nth_error (ms_threads st') n = Some th -> mt_call th = CallString i ->
      mt_code th = StringCode i \/ mt_code th = MText (meaning_text m).
  Proof.
    intros R G M st' H. induction H as [st|st st' st2 H1 IH H2].
    - split; [exact G|]. split; [lia|]. intros n th Hn E _. apply nth_error_None in Hn. congruence.
    - destruct (IH R G) as (G' & LE & K). split; [now apply gave_step with st'|].
      assert (R' : mreach st') by (eapply steps_reach; eassumption). pose proof (fine_names st' s q i m R' G' M) as F.
      clear G G' R R' IH H1. destruct H2 as [t r w ths c|t r w ths1 th ths2 t' r' w' th' H]; cbn [ms_threads ms_table] in *.
      + split; [rewrite app_length; lia|]. intros n th Hn E C. destruct (Nat.lt_ge_cases n (length ths)) as [Q|Q].
        * rewrite nth_error_app1 in E by exact Q. exact (K n th Hn E C).
        * rewrite nth_error_app2 in E by exact Q. destruct (n - length ths)%nat as [|[|k]]; try discriminate. injection E as <-. cbn [mt_call mt_code] in *. subst c. now left.
      + split; [rewrite app_length in *; exact LE|]. intros n th2 Hn E C. destruct (Nat.eq_dec n (length ths1)) as [->|Q].
        * rewrite nth_error_app2, Nat.sub_diag in E by lia. injection E as <-.
          specialize (K (length ths1) th Hn). rewrite nth_error_app2, Nat.sub_diag in K by lia. specialize (K eq_refl).
          inversion H as [t1 r1 w1 c k r2 w2 k' E|t1 r1 w1 c k x E|t1 r1 w1 c k t2 k' E]; subst; cbn [mt_call mt_code] in *; destruct (K C) as [ -> | -> ]; try discriminate E.
          -- now left.
          -- cbn [StringCode performed] in E. injection E as <- <-. right. now rewrite F.
        * apply (K n th2 Hn); [|exact C]. destruct (Nat.lt_ge_cases n (length ths1)) as [Q'|Q'].
          -- rewrite nth_error_app1 in E |- * by exact Q'. exact E.
          -- rewrite nth_error_app2 in E |- * by exact Q'. destruct (n - length ths1)%nat eqn:D; [lia|]. exact E.
  Qed.
  Lemma text_of st st' s q i m n x : mreach st -> gave st s q i -> means s q m -> msteps st st' ->
    (length (ms_threads st) <= n)%nat -> wrote st' n i x -> x = meaning_text m.
  Proof.
    intros R G M H Hn (b & W). destruct (later_text _ _ _ _ _ R G M _ H) as (_ & _ & K).
    destruct (K _ _ Hn W eq_refl) as [E|E]; cbn [mt_code] in E; [discriminate|now injection E].
  Qed.

  (** Nobody waits for ever. *)
  Lemma free_moves t0 t th v : point t0 t th v -> fst v = Free -> ~ over th -> exists x, mturn (t, 0%nat, false, th) x.
  Proof.
    intros H E N. destruct H; try discriminate E; try (exfalso; apply N; exact Logic.I).
    - eexists. apply mt_mutex. rewrite read_code. reflexivity.
    - eexists. apply mt_mutex. reflexivity.
    - destruct b; eexists; [eapply mt_end|eapply mt_begin]; reflexivity.
  Qed.
  Lemma holder_moves t0 t th v r w : point t0 t th v -> fst v <> Free -> exists x, mturn (t, r, w, th) x.
  Proof.
    intros H E. destruct H; try (now contradiction E).
    all: try (destruct b; eexists; [eapply mt_end|eapply mt_begin]; reflexivity).
    all: eexists; apply mt_mutex; reflexivity.
  Qed.
  Lemma some_view f ths vs t0 t : Forall2 (point t0 t) ths vs -> (1 <= number_of f vs)%nat -> exists ths1 th ths2 v, ths = ths1 ++ th :: ths2 /\ point t0 t th v /\ f v = true.
  Proof.
    induction 1 as [|th v ths vs H1 H2 IH]; [cbn; lia|]. rewrite number_cons. destruct (f v) eqn:E; intros N; [exists [], th, ths, v; now split|].
    destruct (IH N) as (ths1 & th' & ths2 & v' & -> & K). exists (th :: ths1), th', ths2, v'. now split.
  Qed.
  Lemma no_deadlock st : mreach st -> Exists (fun th => ~ over th) (ms_threads st) ->
    exists ths1 th ths2 x, ms_threads st = ths1 ++ th :: ths2 /\ mturn (ms_table st, ms_readers st, ms_writer st, th) x.
  Proof.
    intros H X. destruct (told_reach _ H) as (t0 & vs & HP & HR & HW & _).
    assert (GO : forall f, (forall v, f v = true -> fst v <> Free) -> (1 <= number_of f vs)%nat -> exists ths1 th ths2 x, ms_threads st = ths1 ++ th :: ths2 /\ mturn (ms_table st, ms_readers st, ms_writer st, th) x).
    { intros f F N. destruct (some_view f _ _ _ _ HP N) as (ths1 & th & ths2 & v & -> & K1 & K2). destruct (holder_moves _ _ _ _ (ms_readers st) (ms_writer st) K1 (F v K2)) as [x K]. exists ths1, th, ths2, x. now split. }
    destruct HW as [(W & N & _)|(W & N & _)]; [|apply (GO is_writes); [unfold is_writes; intros v E E'; rewrite E' in E; discriminate|lia]].
    destruct (number_of is_reads vs) as [|n] eqn:NR; [|apply (GO is_reads); [unfold is_reads; intros v E E'; rewrite E' in E; discriminate|lia]].
    rewrite W, <- HR. apply Exists_exists in X. destruct X as (th & Hi & NO). apply in_split in Hi. destruct Hi as (ths1 & ths2 & E). exists ths1, th, ths2.
    rewrite E in HP. apply Forall2_app_inv_l in HP. destruct HP as (vs1 & vs' & P1 & P' & ->). destruct vs' as [|v vs2]; [inversion P'|]. assert (PT : point t0 (ms_table st) th v) by (inversion P'; assumption).
    apply none_of in N. apply none_of in NR. apply Forall_app in N as [_ N]. apply Forall_app in NR as [_ NR]. inversion N; inversion NR; subst.
    destruct (free_moves _ _ _ _ PT ltac:(now apply is_free) NO) as [x K]. now exists x.
  Qed.

  Lemma within_more n c : within n c -> forall m, (n <= m)%nat -> within m c.
  Proof.
    induction 1; intros m' Hm; [constructor|constructor|..].
    1-4: destruct m' as [|m']; [lia|]; constructor; apply IHwithin; lia.
    all: destruct m' as [|[|m']]; [lia|lia|]; constructor; intros; first [apply IHwithin; lia|match goal with H : forall _ m, _ -> within m _ |- _ => apply H; lia end].
  Qed.
  Lemma call_within c : within 20 (callCode c).
  Proof.
    destruct c as [s q|i]; [|cbn [callCode StringCode]; constructor; intros; constructor]. cbn [callCode]. rewrite read_code. constructor.
    assert (A : forall o n, within (S n) (after_write o)) by (intros; unfold after_write; do 2 constructor).
    assert (C : forall n, within (10 + S (S (S n))) (create s q)) by (intros; repeat (first [apply A|constructor; intros])).
    assert (W : within 15 (write_code s q)) by (rewrite write_code_eq; destruct (word_of s q); [apply A|constructor; intros [id|]; [apply A|apply (C 0%nat)]]).
    assert (R : forall o, within 17 (after_read s q o)) by (intros [id|]; unfold after_read; [do 2 constructor|do 2 constructor; exact W]).
    destruct (word_of s q); [apply within_more with 17%nat; [apply R|lia]|constructor; intros [id|]; apply R].
  Qed.

  (** The steps that are left. *)
  Lemma turn_within t r w th t' r' w' th' n : mturn (t, r, w, th) (t', r', w', th') -> within (if mt_busy th then S n else n) (mt_code th) ->
    exists n', n = S n' /\ within (if mt_busy th' then S n' else n') (mt_code th').
  Proof.
    intros H W. inversion H as [t1 r1 w1 c k r2 w2 k' E|t1 r1 w1 c k x E|t1 r1 w1 c k t2 k' E]; subst; cbn [mt_busy mt_code] in *.
    - inversion W; subst; try discriminate; cbn [mutexStep] in E.
      + destruct w; [discriminate|]. injection E as <- <- <-. eauto.
      + injection E as <- <- <-. eauto.
      + destruct w; [discriminate|]. destruct r; [|discriminate]. injection E as <- <- <-. eauto.
      + injection E as <- <- <-. eauto.
    - destruct n as [|n]; [inversion W; subst; discriminate|]. exists n. split; [reflexivity|exact W].
    - inversion W; subst; try discriminate; cbn [performed] in E; injection E as <- <-; eexists; (split; [reflexivity|auto]).
  Qed.
End Race.
