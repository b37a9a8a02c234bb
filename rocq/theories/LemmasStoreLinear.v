(** Every execution with goroutines that are interrupted anywhere is one of single
    steps. *)

From Verif Require Import ModelStoreRace SpecStoreRace LemmasBase LemmasStoreRace.

(** ** Lists of transactions and of goroutines *)

Lemma tx_set_same l x t t' : find_tx l x = Some t -> find_tx (set_tx l x t') x = Some t'.
Proof. induction l as [|[y u] l IH]; [discriminate|]. cbn [find_tx set_tx]. destruct (y =? x)%nat eqn:E; cbn [find_tx]; rewrite E; [reflexivity|exact IH]. Qed.
Lemma tx_set_other l x y t : x <> y -> find_tx (set_tx l x t) y = find_tx l y.
Proof.
  intros N. induction l as [|[z u] l IH]; [reflexivity|]. cbn [find_tx set_tx]. destruct (z =? x)%nat eqn:E; cbn [find_tx].
  - apply Nat.eqb_eq in E. subst z. apply Nat.eqb_neq in N. now rewrite N.
  - now rewrite IH.
Qed.
Lemma tx_app_same l x t : find_tx l x = None -> find_tx (l ++ [(x, t)]) x = Some t.
Proof. induction l as [|[y u] l IH]; cbn [app find_tx]; [now rewrite Nat.eqb_refl|]. destruct (y =? x)%nat; [discriminate|exact IH]. Qed.
Lemma tx_app_other l x y t : x <> y -> find_tx (l ++ [(x, t)]) y = find_tx l y.
Proof. intros N. apply Nat.eqb_neq in N. induction l as [|[z u] l IH]; cbn [app find_tx]; [now rewrite N|]. now rewrite IH. Qed.
Lemma th_set_same l x t t' : find_th l x = Some t -> find_th (set_th l x t') x = Some t'.
Proof. induction l as [|[y u] l IH]; [discriminate|]. cbn [find_th set_th]. destruct (y =? x)%nat eqn:E; cbn [find_th]; rewrite E; [reflexivity|exact IH]. Qed.
Lemma th_set_other l x y t : x <> y -> find_th (set_th l x t) y = find_th l y.
Proof.
  intros N. induction l as [|[z u] l IH]; [reflexivity|]. cbn [find_th set_th]. destruct (z =? x)%nat eqn:E; cbn [find_th].
  - apply Nat.eqb_eq in E. subst z. apply Nat.eqb_neq in N. now rewrite N.
  - now rewrite IH.
Qed.
Lemma th_app_same l x t : find_th l x = None -> find_th (l ++ [(x, t)]) x = Some t.
Proof. induction l as [|[y u] l IH]; cbn [app find_th]; [now rewrite Nat.eqb_refl|]. destruct (y =? x)%nat; [discriminate|exact IH]. Qed.
Lemma th_app_other l x y t : x <> y -> find_th (l ++ [(x, t)]) y = find_th l y.
Proof. intros N. apply Nat.eqb_neq in N. induction l as [|[z u] l IH]; cbn [app find_th]; [now rewrite N|]. now rewrite IH. Qed.

Lemma seen_app a b : seen (a ++ b) = seen a ++ seen b.
Proof. induction a as [|[e|o out] a IH]; cbn [app seen]; [reflexivity|now rewrite IH|exact IH]. Qed.
Lemma acted_app a b : acted (a ++ b) = acted a ++ acted b.
Proof. induction a as [|[e|o out] a IH]; cbn [app acted]; [reflexivity|exact IH|now rewrite IH]. Qed.
Lemma of_key_app k a b : of_key k (a ++ b) = of_key k a ++ of_key k b.
Proof. unfold of_key. apply filter_app. Qed.
Lemma key_same k : same_key k k = true.
Proof. destruct k; [apply Nat.eqb_refl|reflexivity]. Qed.
Lemma key_other x y : x <> y -> same_key (Some x) (Some y) = false.
Proof. intros N. now apply Nat.eqb_neq. Qed.

Section Linear.
  Context {X : FloatLib} {L : CaseLib} {G : GobLib}.

  Lemma run_snoc ops : forall w outs w', run w ops = (outs, w') -> forall o out w2, step w' o = (out, w2) -> run w (ops ++ [o]) = (outs ++ [out], w2).
  Proof.
    induction ops as [|p ops IH]; intros w outs w' H o out w2 S; cbn [run app] in *.
    - injection H as <- <-. rewrite S. reflexivity.
    - destruct (step w p) as [out1 w1]. destruct (run w1 ops) as [outs' w3] eqn:E. injection H as <- <-. now rewrite (IH _ _ _ E _ _ _ S).
  Qed.

  Definition alike (a b : shared) : Prop := forall i, sh_with_idt a i = sh_with_idt b i.
  Lemma alike_refl a : alike a a.
  Proof. intros i. reflexivity. Qed.
  Lemma alike_sym a b : alike a b -> alike b a.
  Proof. intros H i. now rewrite H. Qed.
  Lemma alike_trans a b c : alike a b -> alike b c -> alike a c.
  Proof. intros H K i. now rewrite H, K. Qed.
  Lemma alike_idt a i : alike (sh_with_idt a i) a.
  Proof. intros j. reflexivity. Qed.
  Lemma alike_eq a b : alike a b -> sh_idt a = sh_idt b -> a = b.
  Proof. intros H E. rewrite <- (idt_own a), <- (idt_own b), E. apply H. Qed.
  Lemma alike_locked a b : alike a b -> sh_locked a = sh_locked b.
  Proof. intros H. pose proof (f_equal sh_locked (H (sh_idt a))) as K. exact K. Qed.
  Lemma alike_new a b : alike a b -> newTx a = newTx b.
  Proof. intros H. pose proof (f_equal newTx (H (sh_idt a))) as K. exact K. Qed.

  (** The state of a goroutine against that of its transaction in the execution of
      single steps; whether it holds the mutex, and how far its call is. *)
  Inductive rel (sh : shared) (w : world) : bool -> nat -> option sthread -> phase -> Prop :=
  | r_none x : find_tx (w_txs w) x = None -> rel sh w false x None Between
  | r_wait x : find_tx (w_txs w) x = None -> rel sh w false x (Some ThWait) (Started (Begin x))
  | r_begin x b : find_tx (w_txs w) x = Some (newTx sh) -> alike sh (w_sh w) ->
      rel sh w true x (Some (ThBegin b)) (Acted (Begin x) ODone)
  | r_idle x tx : find_tx (w_txs w) x = Some tx -> tx_live tx = true -> alike sh (w_sh w) -> rel sh w true x (Some (ThIdle tx)) Between
  | r_over x tx : find_tx (w_txs w) x = Some tx -> dead tx -> rel sh w false x (Some (ThIdle tx)) Between
  | r_pre x tx c code b wtx : find_tx (w_txs w) x = Some wtx -> tx_live tx = true -> once code ->
      (forall i, exec code (sh_with_idt sh i) tx = callStep (sh_with_idt (w_sh w) i, wtx) c) ->
      rel sh w true x (Some (ThCall tx c code b)) (Started (Call x c))
  | r_pre_dead x tx c code b wtx : find_tx (w_txs w) x = Some wtx -> dead tx -> once code ->
      (forall s, exec code s tx = callStep (s, wtx) c) -> rel sh w false x (Some (ThCall tx c code b)) (Started (Call x c))
  | r_post x tx c code b wtx out : find_tx (w_txs w) x = Some wtx -> tx_live tx = true -> noid code ->
      (forall i, exec code (sh_with_idt sh i) tx = (out, (sh_with_idt (w_sh w) i, wtx))) ->
      rel sh w true x (Some (ThCall tx c code b)) (Acted (Call x c) out)
  | r_post_free x tx c code b wtx out : find_tx (w_txs w) x = Some wtx -> dead wtx ->
      (noid code /\ dead tx \/ code = SNil (SRet out)) ->
      (forall s, exec code s tx = (out, (s, wtx))) -> rel sh w false x (Some (ThCall tx c code b)) (Acted (Call x c) out).

  Lemma rel_free sh w sh' w' x th ph : find_tx (w_txs w') x = find_tx (w_txs w) x -> rel sh w false x th ph -> rel sh' w' false x th ph.
  Proof. intros F H. inversion H; subst; rewrite <- F in *; econstructor; eassumption. Qed.
  Lemma rel_alike sh w sh' w' b x th ph : find_tx (w_txs w') x = find_tx (w_txs w) x -> alike sh sh' -> alike (w_sh w) (w_sh w') ->
    rel sh w b x th ph -> rel sh' w' b x th ph.
  Proof.
    intros F A B H. assert (C : alike sh (w_sh w) -> alike sh' (w_sh w')) by (intros C; eapply alike_trans; [apply alike_sym, A|]; eapply alike_trans; eassumption).
    inversion H; subst; rewrite <- F in *; try (econstructor; eassumption || auto; fail).
    - rewrite (alike_new _ _ A) in *. constructor; auto.
    - econstructor; [eassumption|assumption|assumption|]. intros i. rewrite <- (A i), <- (B i). auto.
    - econstructor; [eassumption|assumption|assumption|]. intros i. rewrite <- (A i), <- (B i). auto.
  Qed.

  Definition holds (h : option nat) (x : nat) : bool := match h with Some y => (y =? x)%nat | None => false end.

  (** The invariant. *)
  Definition linked (t : idtable) (st : sstate) (E : list happening) (w : world) (h : option nat) : Prop :=
    seen E = ss_log st /\ run (newStore t) (map fst (acted E)) = (map snd (acted E), w) /\
    sh_idt (ss_sh st) = sh_idt (w_sh w) /\ sh_locked (ss_sh st) = match h with Some _ => true | None => false end /\
    (h = None -> alike (ss_sh st) (w_sh w)) /\
    (forall x, exists ph, orderly (of_key (Some x) E) ph /\ rel (ss_sh st) w (holds h x) x (find_th (ss_threads st) x) ph) /\
    orderly (of_key None E) Between.

  (** What the others see. *)
  Definition of_other (x : nat) (l : list happening) : Prop := Forall (fun e => whose_happening e = Some x) l.
  Lemma other_key x y l : x <> y -> of_other x l -> of_key (Some y) l = [].
  Proof. intros N H. induction H as [|e l H1 H2 IH]; [reflexivity|]. unfold of_key in *. cbn [filter]. rewrite H1, (key_other _ _ N). exact IH. Qed.
  Lemma none_key x l : of_other x l -> of_key None l = [].
  Proof. intros H. induction H as [|e l H1 H2 IH]; [reflexivity|]. unfold of_key in *. cbn [filter]. rewrite H1. exact IH. Qed.
  Lemma own_key x l : of_other x l -> of_key (Some x) l = l.
  Proof. intros H. induction H as [|e l H1 H2 IH]; [reflexivity|]. unfold of_key in *. cbn [filter]. rewrite H1, key_same, IH. reflexivity. Qed.

  (** A step of the goroutine of [x], with some events and some points. *)
  Lemma linked_own t st E w h x ths' sh' log' D w' h' ph :
    linked t st E w h -> of_other x D -> ss_log st ++ seen D = log' ->
    (acted D = [] /\ w' = w \/ exists o out, acted D = [(o, out)] /\ step w o = (out, w')) ->
    (forall y, x <> y -> find_th ths' y = find_th (ss_threads st) y) ->
    (forall y, x <> y -> find_tx (w_txs w') y = find_tx (w_txs w) y) ->
    (forall y, x <> y -> holds h' y = holds h y) ->
    (holds h x = true \/ holds h' x = true \/ alike (ss_sh st) sh' /\ alike (w_sh w) (w_sh w')) ->
    sh_idt sh' = sh_idt (w_sh w') -> sh_locked sh' = match h' with Some _ => true | None => false end ->
    (h' = None -> alike sh' (w_sh w')) ->
    orderly (of_key (Some x) E ++ D) ph ->
    rel sh' w' (holds h' x) x (find_th ths' x) ph ->
    linked t {| ss_sh := sh'; ss_threads := ths'; ss_log := log' |} (E ++ D) w' h'.
  Proof.
    intros (I1 & I2 & I3 & I4 & I5 & I6 & I7) HD HL HW HT HX HH HO H3 H4 H5 HP HR. unfold linked. cbn [ss_sh ss_threads ss_log].
    split; [rewrite seen_app, I1; exact HL|]. split.
    { rewrite acted_app, !map_app. destruct HW as [[-> ->]|(o & out & -> & S)]; cbn [map fst snd]; [now rewrite !app_nil_r|]. eapply run_snoc; eassumption. }
    split; [exact H3|]. split; [exact H4|]. split; [exact H5|]. split; [|rewrite of_key_app, (none_key _ _ HD), app_nil_r; exact I7].
    intros y. destruct (Nat.eq_dec x y) as [<-|N].
    - exists ph. rewrite of_key_app, (own_key _ _ HD). split; [exact HP|exact HR].
    - destruct (I6 y) as (ph0 & O0 & R0). exists ph0. rewrite of_key_app, (other_key _ _ _ N HD), app_nil_r. split; [exact O0|]. rewrite (HH _ N), (HT _ N).
      destruct HO as [HO|[HO|[A B]]].
      + assert (holds h y = false) as E0 by (unfold holds in *; destruct h as [z|]; [|reflexivity]; apply Nat.eqb_eq in HO; subst z; now apply Nat.eqb_neq).
        rewrite E0 in *. eapply rel_free; [exact (HX _ N)|exact R0].
      + assert (holds h' y = false) as E0 by (unfold holds in *; destruct h' as [z|]; [|reflexivity]; apply Nat.eqb_eq in HO; subst z; now apply Nat.eqb_neq).
        rewrite (HH _ N) in E0. rewrite E0 in *. eapply rel_free; [exact (HX _ N)|exact R0].
      + eapply rel_alike; [exact (HX _ N)|exact A|exact B|exact R0].
  Qed.

  Lemma step_call w x c wtx out sh' tx' : find_tx (w_txs w) x = Some wtx -> callStep (w_sh w, wtx) c = (out, (sh', tx')) ->
    step w (Call x c) = (out, {| w_sh := sh'; w_txs := set_tx (w_txs w) x tx' |}).
  Proof. intros F E. cbn [step]. now rewrite F, E. Qed.

  Lemma linked_init t : linked t {| ss_sh := w_sh (newStore t); ss_threads := []; ss_log := [] |} [] (newStore t) None.
  Proof.
    unfold linked. cbn [ss_sh ss_threads ss_log]. repeat (split; [first [reflexivity|intros; apply alike_refl]|]). split; [|constructor].
    intros x. exists Between. split; [constructor|]. now constructor.
  Qed.

  Lemma holder_of h x : holds h x = true -> h = Some x.
  Proof. destruct h as [y|]; [|discriminate]. intros E. apply Nat.eqb_eq in E. now subst. Qed.
  Lemma one1 x e : whose_happening e = Some x -> of_other x [e].
  Proof. intros H. constructor; [exact H|constructor]. Qed.
  Lemma one2 x e f : whose_happening e = Some x -> whose_happening f = Some x -> of_other x [e; f].
  Proof. intros H K. constructor; [exact H|now apply one1]. Qed.
  Lemma order2 l e f ph ph' : (orderly (l ++ [e]) ph) -> (orderly (l ++ [e]) ph -> orderly ((l ++ [e]) ++ [f]) ph') -> orderly (l ++ [e; f]) ph'.
  Proof. intros H K. change [e; f] with ([e] ++ [f]). rewrite app_assoc. auto. Qed.

  (** Only the goroutine changes. *)
  Lemma linked_turn t sh ths log E w h x th ph : linked t {| ss_sh := sh; ss_threads := ths; ss_log := log |} E w h ->
    find_th ths x <> None -> orderly (of_key (Some x) E) ph -> rel sh w (holds h x) x (Some th) ph ->
    linked t {| ss_sh := sh; ss_threads := set_th ths x th; ss_log := log |} E w h.
  Proof.
    intros I F O R. pose proof I as (I1 & I2 & I3 & I4 & I5 & I6 & I7). rewrite <- (app_nil_r E).
    eapply linked_own with (x := x) (w := w) (h := h) (ph := ph); try exact I; cbn [ss_sh ss_threads ss_log] in *; try assumption.
    - constructor.
    - cbn [seen]. apply app_nil_r.
    - left. now split.
    - intros y N. now apply th_set_other.
    - reflexivity.
    - reflexivity.
    - right. right. split; apply alike_refl.
    - now rewrite app_nil_r.
    - destruct (find_th ths x) as [th0|] eqn:E0; [|contradiction]. now rewrite (th_set_same _ _ _ _ E0).
  Qed.

  (** The holder acts, and nothing is seen of it. *)
  Lemma linked_holder t sh ths log E w x th ph sh' : linked t {| ss_sh := sh; ss_threads := ths; ss_log := log |} E w (Some x) ->
    find_th ths x <> None -> orderly (of_key (Some x) E) ph -> sh_idt sh' = sh_idt sh -> sh_locked sh' = sh_locked sh ->
    rel sh' w true x (Some th) ph ->
    linked t {| ss_sh := sh'; ss_threads := set_th ths x th; ss_log := log |} E w (Some x).
  Proof.
    intros I F O E1 E2 R. pose proof I as (I1 & I2 & I3 & I4 & I5 & I6 & I7). rewrite <- (app_nil_r E).
    eapply linked_own with (x := x) (w := w) (h := Some x) (ph := ph); try exact I; cbn [ss_sh ss_threads ss_log] in *; try assumption.
    - constructor.
    - cbn [seen]. apply app_nil_r.
    - left. now split.
    - intros y N. now apply th_set_other.
    - reflexivity.
    - reflexivity.
    - left. apply Nat.eqb_refl.
    - congruence.
    - congruence.
    - discriminate.
    - now rewrite app_nil_r.
    - cbn [holds]. rewrite Nat.eqb_refl. destruct (find_th ths x) as [th0|] eqn:E0; [|contradiction]. now rewrite (th_set_same _ _ _ _ E0).
  Qed.

  (** A call acts. *)
  Lemma linked_acts t sh ths log E w h x c wtx out ws' wtx' th sh' h' D ph : linked t {| ss_sh := sh; ss_threads := ths; ss_log := log |} E w h ->
    find_th ths x <> None -> orderly (of_key (Some x) E) (Started (Call x c)) ->
    find_tx (w_txs w) x = Some wtx -> callStep (w_sh w, wtx) c = (out, (ws', wtx')) ->
    (D = [] /\ ph = Acted (Call x c) out \/ D = [Happens (EEnd (Call x c) out)] /\ ph = Between) ->
    (forall y, x <> y -> holds h' y = holds h y) ->
    (holds h x = true \/ alike sh sh' /\ alike (w_sh w) ws') -> sh_idt sh' = sh_idt ws' ->
    sh_locked sh' = match h' with Some _ => true | None => false end -> (h' = None -> alike sh' ws') ->
    rel sh' {| w_sh := ws'; w_txs := set_tx (w_txs w) x wtx' |} (holds h' x) x (Some th) ph ->
    exists E w, linked t {| ss_sh := sh'; ss_threads := set_th ths x th; ss_log := log ++ seen D |} E w h'.
  Proof.
    intros I F O FX C HD HH HO H3 H4 H5 R. pose proof I as (I1 & I2 & I3 & I4 & I5 & I6 & I7). cbn [ss_sh ss_threads ss_log] in *.
    pose proof (step_call _ _ _ _ _ _ _ FX C) as S.
    exists (E ++ Acts (Call x c) out :: D), {| w_sh := ws'; w_txs := set_tx (w_txs w) x wtx' |}.
    eapply linked_own with (x := x) (ph := ph); try exact I; cbn [ss_sh ss_threads ss_log w_txs w_sh] in *; try assumption.
    - destruct HD as [[-> _]|[-> _]]; [now apply one1|now apply one2].
    - reflexivity.
    - right. exists (Call x c), out. split; [destruct HD as [[-> _]|[-> _]]; reflexivity|exact S].
    - intros y N. now apply th_set_other.
    - intros y N. now apply tx_set_other.
    - destruct HO as [HO|HO]; [now left|right; now right].
    - destruct HD as [[-> ->]|[-> ->]]; [now constructor|]. eapply order2; [constructor; exact O|]. intros O'. now constructor.
    - destruct (find_th ths x) as [th0|] eqn:E0; [|contradiction]. now rewrite (th_set_same _ _ _ _ E0).
  Qed.

  Definition talks (c : scode) : Prop :=
    match c with SDecode _ k => forall ty, noid (k ty) | SEncode _ k => forall wt, noid (k wt) | _ => False end.
  Lemma talks_act sh tx c sh' tx' c' : talks c -> sact sh tx c = (sh', tx', c') ->
    tx' = tx /\ noid c' /\ exists i, sh' = sh_with_idt sh i /\ forall s, sh_idt s = sh_idt sh -> sact s tx c = (sh_with_idt s i, tx, c').
  Proof.
    intros T H. destruct c; try contradiction; cbn [talks] in T; cbn [sact] in H |- *.
    - destruct (fromWire (sh_idt sh) wt) as [[idt ty]|] eqn:E; injection H as <- <- <-; (split; [reflexivity|]).
      + split; [apply T|]. exists idt. split; [reflexivity|]. intros s Es. now rewrite Es, E.
      + split; [constructor|]. exists (sh_idt sh). split; [now rewrite idt_own|]. intros s Es. rewrite Es, E, <- Es, idt_own. reflexivity.
    - injection H as <- <- <-. split; [reflexivity|]. split; [apply T|]. exists (sh_idt sh). split; [now rewrite idt_own|]. intros s Es. now rewrite <- Es, idt_own.
  Qed.
  Lemma once_cases c : once c -> (exists out, c = SRet out) \/ mild c \/ talks c \/ exists out, c = SUnlock (SNil (SRet out)).
  Proof. destruct 1; [left; eauto|try (right; left; exact Logic.I); try (right; right; left; assumption); right; right; right; eauto..]. Qed.

  Lemma linked_step t st st' : (exists E w h, linked t st E w h) -> sstep st st' -> exists E w h, linked t st' E w h.
  Proof.
    intros (E & w & h & I) S. pose proof I as (I1 & I2 & I3 & I4 & I5 & I6 & I7). destruct S; cbn [ss_sh ss_threads ss_log] in *.
    - (* Begin is called *) destruct (I6 x) as (ph & O & R). rewrite H in R. inversion R as [x0 F E0 E1 E2 E3| | | | | | | |]; subst.
      exists (E ++ [Happens (EStart (Begin x))]), w, h.
      eapply linked_own with (x := x) (ph := Started (Begin x)); try exact I; cbn [ss_sh ss_threads ss_log]; try assumption.
      + now apply one1.
      + reflexivity.
      + left. now split.
      + intros y N. now apply th_app_other.
      + reflexivity.
      + reflexivity.
      + right. right. split; apply alike_refl.
      + now constructor.
      + rewrite (th_app_same _ _ _ H). match goal with K : false = holds h x |- _ => rewrite <- K end. now constructor.
    - (* the mutex *) destruct (I6 x) as (ph & O & R). rewrite H in R. inversion R as [|x0 F E0 E1 E2 E3| | | | | | |]; subst.
      rewrite H0 in I4. destruct h as [y|]; [discriminate|]. specialize (I5 eq_refl).
      exists (E ++ [Acts (Begin x) ODone]), {| w_sh := {| sh_heap := sh_heap (w_sh w); sh_tree := sh_tree (w_sh w); sh_locked := true; sh_idt := sh_idt (w_sh w) |}; w_txs := w_txs w ++ [(x, newTx (w_sh w))] |}, (Some x).
      pose proof (alike_eq _ _ I5 I3) as EQ.
      eapply linked_own with (x := x) (ph := Acted (Begin x) ODone); try exact I; cbn [ss_sh ss_threads ss_log w_sh w_txs]; try assumption.
      + now apply one1.
      + cbn [seen]. apply app_nil_r.
      + right. exists (Begin x), ODone. split; [reflexivity|]. cbn [step]. rewrite F, <- EQ, H0. reflexivity.
      + intros y N. now apply th_set_other.
      + intros y N. now apply tx_app_other.
      + intros y N. now apply Nat.eqb_neq.
      + right. left. apply Nat.eqb_refl.
      + reflexivity.
      + discriminate.
      + now constructor.
      + rewrite (th_set_same _ _ _ _ H). cbn [holds]. rewrite Nat.eqb_refl. subst sh. constructor; cbn [w_sh w_txs]; [|apply alike_refl]. now apply tx_app_same.
    - (* it reads the variable *) exists E, w, h. destruct (I6 x) as (ph & O & R). eapply linked_turn; [exact I|congruence|exact O|]. rewrite H in R. inversion R; subst. now constructor.
    - (* Begin returns *) destruct (I6 x) as (ph & O & R). rewrite H in R. inversion R; subst.
      exists (E ++ [Happens (EEnd (Begin x) ODone)]), w, h.
      eapply linked_own with (x := x) (ph := Between); try exact I; cbn [ss_sh ss_threads ss_log]; try assumption.
      + now apply one1.
      + reflexivity.
      + left. now split.
      + intros y N. now apply th_set_other.
      + reflexivity.
      + reflexivity.
      + right. right. split; apply alike_refl.
      + now constructor.
      + rewrite (th_set_same _ _ _ _ H). match goal with K : true = holds h x |- _ => rewrite <- K end. now constructor.
    - (* a method is called *) destruct (I6 x) as (ph & O & R). rewrite H in R.
      exists (E ++ [Happens (EStart (Call x c))]), w, h.
      assert (ph = Between /\ rel sh w (holds h x) x (Some (ThCall tx c (scall c) false)) (Started (Call x c))) as [-> R'].
      { inversion R; subst; (split; [reflexivity|]).
        - eapply r_pre; [eassumption|assumption|apply once_call|]. intros i. rewrite exec_call. match goal with A : alike _ _ |- _ => now rewrite (A i) end.
        - eapply r_pre_dead; [eassumption|assumption|apply once_call|]. intros s. apply exec_call. }
      eapply linked_own with (x := x) (ph := Started (Call x c)); try exact I; cbn [ss_sh ss_threads ss_log]; try assumption.
      + now apply one1.
      + reflexivity.
      + left. now split.
      + intros y N. now apply th_set_other.
      + reflexivity.
      + reflexivity.
      + right. right. split; apply alike_refl.
      + now constructor.
      + now rewrite (th_set_same _ _ _ _ H).
    - (* an access begins *) exists E, w, h. destruct (I6 x) as (ph & O & R). eapply linked_turn; [exact I|congruence|exact O|]. rewrite H in R. inversion R; subst; econstructor; eassumption.
    - (* an action *) clear I1. destruct (I6 x) as (ph & O & R). rewrite H in R. assert (FT : find_th ths x <> None) by congruence.
      pose proof (exec_sact _ _ _ _ _ _ H1) as EX.
      inversion R as [| | | | |x0 tx0 c0 code0 b wtx F LV ON EQ E1 E2 E3 E4|x0 tx0 c0 code0 b wtx F DD ON EQ E1 E2 E3 E4|x0 tx0 c0 code0 b wtx out F LV NI EQ E1 E2 E3 E4|x0 tx0 c0 code0 b wtx out F DW CS EQ E1 E2 E3 E4]; subst.
      + (* of the holder, before its point *) symmetry in E1. pose proof (holder_of _ _ E1) as ->.
        assert (MILD : mild code -> exists E w h, linked t {| ss_sh := sh'; ss_threads := set_th ths x (ThCall tx' c code' false); ss_log := log |} E w h).
        { intros M. destruct (mild_live _ _ _ _ _ _ M LV H1) as (K1 & K2 & K3 & K4). exists E, w, (Some x). eapply linked_holder; try eassumption.
          eapply r_pre; [eassumption|exact K1|eapply mild_once; eassumption|]. intros i. rewrite <- (exec_sact _ _ _ _ _ _ (K4 i)). apply EQ. }
        destruct (once_cases _ ON) as [(out & ->)|[M|[T|(out & ->)]]]; [now contradiction (H0 out)|exact (MILD M)| |]; clear MILD.
        * (* identifiers *) destruct (talks_act _ _ _ _ _ _ T H1) as (-> & NC & i & -> & _).
          destruct (callStep (w_sh w, wtx) c) as [out [ws' wtx']] eqn:EC. pose proof (EQ (sh_idt sh)) as EQ1. rewrite idt_own, I3, idt_own, EC, EX in EQ1.
          destruct (noid_exec _ NC _ _ _ _ _ EQ1) as [D1 D2].
          destruct (linked_acts t sh ths log E w (Some x) x c wtx out ws' wtx' (ThCall tx c code' false) (sh_with_idt sh i) (Some x) [] (Acted (Call x c) out) I FT O F EC) as (E' & w' & K);
            [now left|reflexivity|left; exact E1|now symmetry|exact I4|discriminate| |].
          { rewrite E1. eapply r_post; cbn [w_txs w_sh]; [eapply tx_set_same; exact F|exact LV|exact NC|exact D2]. }
          cbn [seen] in K. rewrite app_nil_r in K. eauto.
        * (* the mutex is released *) cbn [sact] in H1. rewrite LV in H1. injection H1 as <- <- <-.
          pose proof (EQ (sh_idt sh)) as EQ1. rewrite idt_own, I3, idt_own in EQ1. cbn [exec] in EQ1. rewrite LV in EQ1. symmetry in EQ1.
          destruct (linked_acts t sh ths log E w (Some x) x c wtx out _ _ (ThCall tx c (SNil (SRet out)) false)
            {| sh_heap := sh_heap sh; sh_tree := sh_tree sh; sh_locked := false; sh_idt := sh_idt sh |} None [] (Acted (Call x c) out) I FT O F EQ1) as (E' & w' & K);
            [now left|intros y N; symmetry; now apply Nat.eqb_neq|left; exact E1|reflexivity|reflexivity|intros _; apply alike_refl| |].
          { cbn [holds]. eapply r_post_free; cbn [w_txs w_sh]; [eapply tx_set_same; exact F|now split|now right|]. intros s. reflexivity. }
          cbn [seen] in K. rewrite app_nil_r in K. eauto.
      + (* of one that is completed, before its point *) destruct (once_cases _ ON) as [(out & ->)|[M|[T|(out & ->)]]]; [now contradiction (H0 out)| | |].
        * destruct (mild_dead _ _ M DD) as (tx2 & c2 & D2 & K). pose proof (K sh) as K1. rewrite K1 in H1. injection H1 as <- <- <-. exists E, w, h. eapply linked_turn; try eassumption.
          rewrite <- E1. eapply r_pre_dead; [eassumption|exact D2|eapply mild_once; eassumption|]. intros s. rewrite <- (exec_sact _ _ _ _ _ _ (K s)). apply EQ.
        * destruct (talks_act _ _ _ _ _ _ T H1) as (-> & NC & i & -> & K0). destruct (noid_dead _ NC _ DD) as (out & tx2 & D2 & D3).
          pose proof (EQ (w_sh w)) as EQ1. rewrite (exec_sact _ _ _ _ _ _ (K0 (w_sh w) (eq_sym I3))), D3 in EQ1. symmetry in EQ1.
          destruct (linked_acts t sh ths log E w h x c wtx out _ _ (ThCall tx c code' false) (sh_with_idt sh i) h [] (Acted (Call x c) out) I FT O F EQ1) as (E' & w' & K);
            [now left|reflexivity|right; split; apply alike_sym, alike_idt|reflexivity|exact I4| | |].
          { intros Hh. exact (fun j => I5 Hh j). }
          { rewrite <- E1. eapply r_post_free; cbn [w_txs w_sh]; [eapply tx_set_same; exact F|exact D2|left; now split|exact D3]. }
          cbn [seen] in K. rewrite app_nil_r in K. eauto.
        * cbn [sact] in H1. destruct DD as [D1 D2]. rewrite D1 in H1. injection H1 as <- <- <-. exists E, w, h. eapply linked_turn; try eassumption.
          rewrite <- E1. eapply r_pre_dead; [eassumption|now split|constructor|]. intros s. rewrite <- EQ. cbn [exec]. now rewrite D1.
      + (* of the holder, behind its point *) symmetry in E1. pose proof (holder_of _ _ E1) as ->.
        destruct (noid_mild _ NI) as [(o & ->)|M]; [now contradiction (H0 o)|]. destruct (mild_live _ _ _ _ _ _ M LV H1) as (K1 & K2 & K3 & K4). exists E, w, (Some x). eapply linked_holder; try eassumption.
        eapply r_post; [eassumption|exact K1|eapply noid_next; eassumption|]. intros i. rewrite <- (exec_sact _ _ _ _ _ _ (K4 i)). apply EQ.
      + (* behind the point, without the mutex *) destruct CS as [[NI DD]| ->].
        * destruct (noid_mild _ NI) as [(o & ->)|M]; [now contradiction (H0 o)|].
          destruct (mild_dead _ _ M DD) as (tx2 & c2 & D2 & K). pose proof (K sh) as K1. rewrite K1 in H1. injection H1 as <- <- <-. exists E, w, h. eapply linked_turn; try eassumption.
          rewrite <- E1. eapply r_post_free; [eassumption|exact DW|left; split; [eapply noid_next; eassumption|exact D2]|]. intros s. rewrite <- (exec_sact _ _ _ _ _ _ (K s)). apply EQ.
        * cbn [sact] in H1. injection H1 as <- <- <-. exists E, w, h. eapply linked_turn; try eassumption.
          rewrite <- E1. eapply r_post_free; [eassumption|exact DW|left; split; [constructor|now split]|]. intros s. rewrite <- (EQ s). reflexivity.
    - (* a method returns *) clear I1. destruct (I6 x) as (ph & O & R). rewrite H in R. assert (FT : find_th ths x <> None) by congruence.
      inversion R as [| | | | |x0 tx0 c0 code0 b0 wtx F LV ON EQ E1 E2 E3 E4|x0 tx0 c0 code0 b0 wtx F DD ON EQ E1 E2 E3 E4|x0 tx0 c0 code0 b0 wtx o F LV NI EQ E1 E2 E3 E4|x0 tx0 c0 code0 b0 wtx o F DW CS EQ E1 E2 E3 E4]; subst.
      + symmetry in E1. pose proof (holder_of _ _ E1) as ->. pose proof (EQ (sh_idt sh)) as EQ1. rewrite idt_own, I3, idt_own in EQ1. cbn [exec] in EQ1. symmetry in EQ1.
        destruct (linked_acts t sh ths log E w (Some x) x c wtx out _ _ (ThIdle tx) sh (Some x) [Happens (EEnd (Call x c) out)] Between I FT O F EQ1) as (E' & w' & K);
          [right; now split|reflexivity|left; exact E1|reflexivity|exact I4|discriminate| |eauto].
        rewrite E1. eapply r_idle; cbn [w_txs w_sh]; [eapply tx_set_same; exact F|exact LV|apply alike_refl].
      + pose proof (EQ (w_sh w)) as EQ1. cbn [exec] in EQ1. symmetry in EQ1.
        destruct (linked_acts t sh ths log E w h x c wtx out _ _ (ThIdle tx) sh h [Happens (EEnd (Call x c) out)] Between I FT O F EQ1) as (E' & w' & K);
          [right; now split|reflexivity|right; split; apply alike_refl|exact I3|exact I4|exact I5| |eauto].
        rewrite <- E1. eapply r_over; cbn [w_txs w_sh]; [eapply tx_set_same; exact F|exact DD].
      + assert (o = out /\ wtx = tx /\ alike sh (w_sh w)) as (-> & -> & A).
        { split; [|split]; [| |intros i]; pose proof (EQ (sh_idt sh)) as EQ1; [| |pose proof (EQ i) as EQ2; cbn [exec] in EQ2; congruence]; cbn [exec] in EQ1; congruence. }
        exists (E ++ [Happens (EEnd (Call x c) out)]), w, h.
        eapply linked_own with (x := x) (ph := Between); try exact I; cbn [ss_sh ss_threads ss_log]; try assumption.
        * now apply one1.
        * reflexivity.
        * left. now split.
        * intros y N. now apply th_set_other.
        * reflexivity.
        * reflexivity.
        * right. right. split; apply alike_refl.
        * now constructor.
        * rewrite (th_set_same _ _ _ _ H), <- E1. now constructor.
      + assert (o = out /\ wtx = tx) as (-> & ->).
        { pose proof (EQ sh) as EQ1. cbn [exec] in EQ1. split; congruence. }
        exists (E ++ [Happens (EEnd (Call x c) out)]), w, h.
        eapply linked_own with (x := x) (ph := Between); try exact I; cbn [ss_sh ss_threads ss_log]; try assumption.
        * now apply one1.
        * reflexivity.
        * left. now split.
        * intros y N. now apply th_set_other.
        * reflexivity.
        * reflexivity.
        * right. right. split; apply alike_refl.
        * now constructor.
        * rewrite (th_set_same _ _ _ _ H), <- E1. now constructor.
    - (* an identifier *) set (D := [Happens (EStart (Intern s q)); Acts (Intern s q) ODone; Happens (EEnd (Intern s q) ODone)]).
      exists (E ++ D), {| w_sh := sh_with_idt (w_sh w) (fst (ID (sh_idt (w_sh w)) s q)); w_txs := w_txs w |}, h.
      unfold linked. cbn [ss_sh ss_threads ss_log w_sh w_txs].
      split; [now rewrite seen_app, I1|]. split.
      { rewrite acted_app, !map_app. cbn [D acted map fst snd]. eapply run_snoc; [exact I2|reflexivity]. }
      rewrite I3. split; [reflexivity|]. split; [exact I4|]. split; [intros Hh; exact (fun j => I5 Hh j)|]. split.
      + intros y. destruct (I6 y) as (ph & O & R). exists ph. rewrite of_key_app. cbn [D of_key filter whose_happening whose same_key]. rewrite app_nil_r. split; [exact O|].
        eapply rel_alike with (w := w) (sh := sh); [reflexivity|apply alike_sym, alike_idt|cbn [w_sh]; apply alike_sym, alike_idt|exact R].
      + rewrite of_key_app. cbn [D of_key filter whose_happening whose same_key].
        change [Happens (EStart (Intern s q)); Acts (Intern s q) ODone; Happens (EEnd (Intern s q) ODone)] with (([Happens (EStart (Intern s q))] ++ [Acts (Intern s q) ODone]) ++ [Happens (EEnd (Intern s q) ODone)]).
        rewrite !app_assoc. constructor. constructor. constructor. exact I7.
  Qed.

  Lemma linked_reach t st : sreach t st -> exists E w h, linked t st E w h.
  Proof. induction 1 as [|st st' _ IH H]; [exists [], (newStore t), None; apply linked_init|exact (linked_step _ _ _ IH H)]. Qed.

  (** ** What follows *)

  Lemma linear t st : sreach t st -> exists E w, seen E = ss_log st /\
    run (newStore t) (map fst (acted E)) = (map snd (acted E), w) /\
    (forall k, exists ph, orderly (of_key k E) ph) /\
    (at_rest st -> w_sh w = ss_sh st /\ forall x, find_tx (w_txs w) x = idle_tx st x).
  Proof.
    intros H. destruct (linked_reach _ _ H) as (E & w & h & I1 & I2 & I3 & I4 & I5 & I6 & I7). exists E, w. split; [exact I1|]. split; [exact I2|]. split.
    { intros [x|]; [|exists Between; exact I7]. destruct (I6 x) as (ph & O & _). now exists ph. }
    intros R. assert (A : alike (ss_sh st) (w_sh w)).
    { destruct h as [x|]; [|now apply I5]. destruct (I6 x) as (ph & _ & K). cbn [holds] in K. rewrite Nat.eqb_refl in K.
      destruct (find_th (ss_threads st) x) as [th|] eqn:F; [|inversion K]. destruct (R _ _ F) as (tx & ->). inversion K; assumption. }
    split; [symmetry; now apply alike_eq|]. intros x. unfold idle_tx. destruct (I6 x) as (ph & _ & K). destruct (find_th (ss_threads st) x) as [th|] eqn:F.
    - destruct (R _ _ F) as (tx & ->). inversion K; assumption.
    - inversion K; assumption.
  Qed.

  Lemma access_holds sh w b x th ph m : rel sh w b x (Some th) ph -> accesses th = Some m -> b = true.
  Proof.
    intros R A. inversion R; subst; try reflexivity; try discriminate; cbn [accesses] in A.
    - destruct b0; [|discriminate]. match goal with D : dead _ |- _ => destruct D as [D1 D2]; rewrite D1, D2 in A end. destruct code; discriminate.
    - destruct b0; [|discriminate]. match goal with D : noid _ /\ dead _ \/ _ |- _ => destruct D as [[_ [D1 D2]]| ->]; [rewrite D1, D2 in A; destruct code; discriminate|discriminate] end.
  Qed.
  Lemma holds_one h x y : holds h x = true -> holds h y = true -> x = y.
  Proof. intros H K. apply holder_of in H. apply holder_of in K. congruence. Qed.
  Lemma one_access t st x y a b m m' : sreach t st -> find_th (ss_threads st) x = Some a -> find_th (ss_threads st) y = Some b ->
    accesses a = Some m -> accesses b = Some m' -> x = y.
  Proof.
    intros H Fa Fb Aa Ab. destruct (linked_reach _ _ H) as (E & w & h & _ & _ & _ & _ & _ & I6 & _).
    destruct (I6 x) as (px & _ & Rx). destruct (I6 y) as (py & _ & Ry). rewrite Fa in Rx. rewrite Fb in Ry.
    exact (holds_one _ _ _ (access_holds _ _ _ _ _ _ _ Rx Aa) (access_holds _ _ _ _ _ _ _ Ry Ab)).
  Qed.
  Lemma unlock_locked t st x th : sreach t st -> find_th (ss_threads st) x = Some th -> unlocks th -> sh_locked (ss_sh st) = true.
  Proof.
    intros H F U. destruct (linked_reach _ _ H) as (E & w & h & _ & _ & _ & I4 & _ & I6 & _). destruct (I6 x) as (ph & _ & R). rewrite F in R.
    assert (K : holds h x = true); [|apply holder_of in K; subst h; exact I4].
    destruct (holds h x) eqn:Eh; [reflexivity|]. exfalso. inversion R; subst; try contradiction; cbn [unlocks] in U; destruct code; try contradiction.
    - match goal with D : dead _ |- _ => destruct D as [D1 D2] end. congruence.
    - match goal with D : noid _ /\ dead _ \/ _ |- _ => destruct D as [[_ [D1 D2]]|D]; [congruence|discriminate] end.
  Qed.
  Lemma locked_open t st : sreach t st -> sh_locked (ss_sh st) = true -> exists x th, find_th (ss_threads st) x = Some th /\ open_ th.
  Proof.
    intros H K. destruct (linked_reach _ _ H) as (E & w & h & _ & _ & _ & I4 & _ & I6 & _). rewrite K in I4. destruct h as [x|]; [|discriminate].
    destruct (I6 x) as (ph & _ & R). cbn [holds] in R. rewrite Nat.eqb_refl in R. exists x.
    destruct (find_th (ss_threads st) x) as [th|]; [|inversion R]. exists th. split; [reflexivity|]. inversion R; subst; cbn [open_]; assumption || exact Logic.I.
  Qed.
  Lemma idle_locked t st x tx : sreach t st -> find_th (ss_threads st) x = Some (ThIdle tx) -> tx_live tx = true ->
    sh_locked (ss_sh st) = true /\ forall y th, find_th (ss_threads st) y = Some th -> x <> y ->
      accesses th = None /\ (forall tx', th = ThIdle tx' -> tx_live tx' = false).
  Proof.
    intros H F Lv. destruct (linked_reach _ _ H) as (E & w & h & _ & _ & _ & I4 & _ & I6 & _). destruct (I6 x) as (ph & _ & R). rewrite F in R.
    assert (K : holds h x = true).
    { destruct (holds h x) eqn:Eh; [reflexivity|]. exfalso. inversion R; subst. match goal with D : dead _ |- _ => destruct D as [D1 D2] end. congruence. }
    apply holder_of in K. subst h. split; [exact I4|]. intros y th Fy N. destruct (I6 y) as (py & _ & Ry). rewrite Fy in Ry. cbn [holds] in Ry. rewrite (proj2 (Nat.eqb_neq x y) N) in Ry. split.
    - destruct (accesses th) as [m|] eqn:Am; [|reflexivity]. pose proof (access_holds _ _ _ _ _ _ _ Ry Am). discriminate.
    - intros tx' ->. inversion Ry; subst. match goal with D : dead _ |- _ => exact (proj1 D) end.
  Qed.
End Linear.
