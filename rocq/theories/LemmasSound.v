(** What the functions of the parser have read when they return: the actions on
    lists of tokens, for any tokens. *)

From Verif Require Import ModelParser SpecParser SpecAccepts LemmasBase LemmasListRun LemmasParserSafe.

Section Sound.
  Variable id : bytes -> Z.
  Variable name : Z -> bytes.

  (** Nothing is scanned behind the end of a statement. *)
  Definition over (t : tok) : bool := match t with KEOF | KEnd => true | _ => false end.
  Definition clean (past : list tok) : Prop := match past with t :: _ => over t = false | [] => True end.
  (** Tokens there are: keywords are negative. *)
  Definition proper (t : tok) : Prop := match t with KReserved k => k < 0 | _ => True end.

  (** (COPY, that reads lines of data, is left out.) *)
  Fixpoint wpl {A} (g : act A) (past ahead : list tok) (Q : A -> list tok -> list tok -> Prop) : Prop :=
    match g with
    | ARet x => Q x past ahead
    | AError | ACrash | AFuel => True
    | AScan k => clean past /\ match ahead with [] => True | t :: r => proper t -> wpl (k t) (t :: past) r Q end
    | AUnscan k => match past with [] => False | t :: p => wpl k p (t :: ahead) Q end
    | ATok k => match past with [] => False | t :: _ => wpl (k t) past ahead Q end
    | AIntern s k => wpl (k (id s)) past ahead Q
    | AName i k => existsb (is_name i) past = true /\ wpl (k (name i)) past ahead Q
    | ABytes l k => forall b, wpl (k b) past ahead Q
    | AReader k => False
    end.

  Lemma wpl_mono {A} (g : act A) : forall p a (Q Q' : A -> list tok -> list tok -> Prop),
    (forall x p a, Q x p a -> Q' x p a) -> wpl g p a Q -> wpl g p a Q'.
  Proof.
    induction g as [x| | | |k IH|k IH|k IH|s k IH|i k IH|l k IH|k IH]; intros p a Q Q' HQ; cbn [wpl]; try tauto.
    - apply HQ.
    - intros [H1 H2]. split; [exact H1|]. destruct a; [exact H2|]. intros Hp. eapply IH; [exact HQ|now apply H2].
    - intros H. destruct p; [exact H|]. eapply IH; eassumption.
    - intros H. destruct p; [exact H|]. eapply IH; eassumption.
    - intros H. eapply IH; eassumption.
    - intros [H1 H]. split; [exact H1|]. eapply IH; eassumption.
    - intros H b. eapply IH; [exact HQ|apply H].
  Qed.
  Lemma wpl_bind {A B} (g : act A) (h : A -> act B) : forall p a Q,
    wpl g p a (fun x p a => wpl (h x) p a Q) -> wpl (abind g h) p a Q.
  Proof.
    induction g as [x| | | |k IH|k IH|k IH|s k IH|i k IH|l k IH|k IH]; intros p a Q; cbn [wpl abind]; try tauto.
    - intros [H1 H2]. split; [exact H1|]. destruct a; [exact H2|]. intros Hp. now apply IH, H2.
    - destruct p; [easy|apply IH].
    - destruct p; [easy|apply IH].
    - apply IH.
    - intros [H1 H]. split; [exact H1|now apply IH].
    - intros H b. apply IH, H.
  Qed.

  (** The names of the numbers [need] have been read. *)
  Definition has (need : list Z) (past : list tok) : Prop := forall i, In i need -> existsb (is_name i) past = true.
  Lemma has_app need ts p : has need p -> has need (ts ++ p).
  Proof. intros H i Hi. rewrite existsb_app, (H i Hi). apply orb_true_r. Qed.
  Lemma has_cons need t p : has need p -> has need (t :: p).
  Proof. exact (has_app need [t] p). Qed.

  (** A function that reads [ts] in front of [rest]. *)
  Definition read_back {A} (p a : list tok) (Rs : A -> list tok -> list tok -> Prop) (x : A) (p' a' : list tok) : Prop :=
    exists ts, a = ts ++ a' /\ p' = rev ts ++ p /\ clean p' /\ Rs x ts a'.
  Definition sound_with {A} (need : list Z) (g : act A) (Rs : A -> list tok -> list tok -> Prop) : Prop :=
    forall p a, clean p -> has need p -> wpl g p a (read_back p a Rs).
  Definition sound {A} (g : act A) (Rs : A -> list tok -> list tok -> Prop) : Prop :=
    forall p a, clean p -> wpl g p a (read_back p a Rs).

  Lemma sound_any {A} need (g : act A) Rs : sound g Rs -> sound_with need g Rs.
  Proof. intros H p a C _. now apply H. Qed.
  Lemma sound_none {A} (g : act A) Rs : sound_with [] g Rs -> sound g Rs.
  Proof. intros H p a C. apply H; [exact C|now intros i []]. Qed.
  Lemma sound_mono {A} need (g : act A) (Rs Rs' : A -> list tok -> list tok -> Prop) :
    (forall x ts a, Rs x ts a -> Rs' x ts a) -> sound_with need g Rs -> sound_with need g Rs'.
  Proof.
    intros H S p a C N. eapply wpl_mono; [|now apply S]. intros x p' a' (ts & E & Ep & C' & HR). exists ts. auto.
  Qed.

  Lemma s_with {A B} need (g : act A) (h : A -> act B) Rs p a Q : sound_with need g Rs -> clean p -> has need p ->
    (forall x ts a', a = ts ++ a' -> Rs x ts a' -> clean (rev ts ++ p) -> wpl (h x) (rev ts ++ p) a' Q) -> wpl (abind g h) p a Q.
  Proof.
    intros S C N H. apply wpl_bind. eapply wpl_mono; [|now apply S]. intros x p' a' (ts & -> & -> & C' & HR). now apply H.
  Qed.
  Lemma s_bind {A B} (g : act A) (h : A -> act B) Rs p a Q : sound g Rs -> clean p ->
    (forall x ts a', a = ts ++ a' -> Rs x ts a' -> clean (rev ts ++ p) -> wpl (h x) (rev ts ++ p) a' Q) -> wpl (abind g h) p a Q.
  Proof. intros S C H. eapply s_with with (need := []); [apply sound_any; exact S|exact C|now intros i []|exact H]. Qed.

  Lemma s_ret {A} (x : A) p a (Q : A -> list tok -> list tok -> Prop) : Q x p a -> wpl (ARet x) p a Q.
  Proof. exact (fun H => H). Qed.
  Lemma s_done {A} ts (x : A) p a p' a' (Rs : A -> list tok -> list tok -> Prop) : a = ts ++ a' -> p' = rev ts ++ p -> clean p' -> Rs x ts a' -> read_back p a Rs x p' a'.
  Proof. intros. exists ts. auto. Qed.
  Lemma s_got {A} t p a (Q : A -> list tok -> list tok -> Prop) : wpl errorGot (t :: p) a Q.
  Proof. cbn. now destruct t as [| |[|]| | | | | | | |]. Qed.
  Lemma s_scan {B} (h : tok -> act B) p a Q : clean p ->
    (forall t r, a = t :: r -> proper t -> wpl (h t) (t :: p) r Q) -> wpl (abind scan_ h) p a Q.
  Proof. intros C H. cbn. split; [exact C|]. destruct a as [|t r]; [exact Logic.I|]. intros Hp. now apply H. Qed.
  Lemma s_unscan {B} (h : unit -> act B) t p a Q : wpl (h tt) p (t :: a) Q -> wpl (abind unscan_ h) (t :: p) a Q.
  Proof. exact (fun H => H). Qed.
  Lemma s_tok {B} (h : tok -> act B) t p a Q : wpl (h t) (t :: p) a Q -> wpl (abind tok_ h) (t :: p) a Q.
  Proof. exact (fun H => H). Qed.
  Lemma s_intern {B} (h : Z -> act B) s p a Q : wpl (h (id s)) p a Q -> wpl (abind (intern_ s) h) p a Q.
  Proof. exact (fun H => H). Qed.
  Lemma s_name {B} (h : bytes -> act B) i p a Q : existsb (is_name i) p = true -> wpl (h (name i)) p a Q -> wpl (abind (name_ i) h) p a Q.
  Proof. intros H1 H2. split; assumption. Qed.
  Lemma s_assoc {A B D} (g : act A) (h : A -> act B) (k : B -> act D) p a Q :
    wpl (abind g (fun x => abind (h x) k)) p a Q -> wpl (abind (abind g h) k) p a Q.
  Proof.
    intros H. apply wpl_bind, wpl_bind. revert H. revert p a. induction g as [x| | | |kk IH|kk IH|kk IH|s kk IH|i kk IH|l kk IH|kk IH]; intros p a; cbn [wpl abind]; try tauto.
    - revert p a. induction (h x) as [y| | | |kk IH|kk IH|kk IH|s kk IH|i kk IH|l kk IH|kk IH]; intros p a; cbn [wpl abind]; try tauto.
      + intros [H1 H2]. split; [exact H1|]. destruct a; [exact H2|]. intros Hp. now apply IH, H2.
      + destruct p; [easy|apply IH].
      + destruct p; [easy|apply IH].
      + apply IH.
      + intros [H1 H]. split; [exact H1|now apply IH].
      + intros H b. apply IH, H.
    - intros [H1 H2]. split; [exact H1|]. destruct a; [exact H2|]. intros Hp. now apply IH, H2.
    - destruct p; [easy|apply IH].
    - destruct p; [easy|apply IH].
    - apply IH.
    - intros [H1 H]. split; [exact H1|now apply IH].
    - intros H b. apply IH, H.
  Qed.
  (** A function in tail position. *)
  Lemma s_tail {A} (g : act A) Rs p a (Q : A -> list tok -> list tok -> Prop) : sound g Rs -> clean p ->
    (forall x ts a', a = ts ++ a' -> Rs x ts a' -> clean (rev ts ++ p) -> Q x (rev ts ++ p) a') -> wpl g p a Q.
  Proof. intros S C H. eapply wpl_mono; [|now apply S]. intros x p' a' (ts & -> & -> & C' & HR). now apply H. Qed.
  Lemma s_tail_with {A} need (g : act A) Rs p a (Q : A -> list tok -> list tok -> Prop) : sound_with need g Rs -> clean p -> has need p ->
    (forall x ts a', a = ts ++ a' -> Rs x ts a' -> clean (rev ts ++ p) -> Q x (rev ts ++ p) a') -> wpl g p a Q.
  Proof. intros S C N H. eapply wpl_mono; [|now apply S]. intros x p' a' (ts & -> & -> & C' & HR). now apply H. Qed.

  (** ** Single tokens *)

  Lemma s_expectReserved {B} ids (h : Z -> act B) p a Q : clean p ->
    (forall k r, a = KReserved k :: r -> In k ids -> clean (KReserved k :: p) -> wpl (h k) (KReserved k :: p) r Q) -> wpl (abind (expectReserved ids) h) p a Q.
  Proof.
    intros C H. apply s_assoc, s_scan; [exact C|]. intros t r -> Hp. destruct (is_reserved t ids) eqn:E.
    - apply is_reserved_in in E. destruct E as (k & -> & I). now apply H.
    - cbn. now destruct t as [| |[|]| | | | | | | |].
  Qed.
  Definition not_next (P : tok -> bool) (a : list tok) : Prop := match a with t :: _ => P t = false | [] => True end.
  Lemma s_optional {B} ids (h : bool -> act B) p a Q : clean p ->
    (forall k r, a = KReserved k :: r -> In k ids -> clean (KReserved k :: p) -> wpl (h true) (KReserved k :: p) r Q) ->
    (not_next (fun t => is_reserved t ids) a -> wpl (h false) p a Q) -> wpl (abind (optionalReserved ids) h) p a Q.
  Proof.
    intros C H N. apply s_assoc, s_scan; [exact C|]. intros t r -> Hp. destruct (is_reserved t ids) eqn:E.
    - apply is_reserved_in in E. destruct E as (k & -> & I). now apply H.
    - apply s_assoc, s_unscan, N. exact E.
  Qed.
  Lemma s_expectIdentifier {B} (h : Z -> act B) p a Q : clean p ->
    (forall i r, a = KIdent i :: r -> clean (KIdent i :: p) -> wpl (h i) (KIdent i :: p) r Q) -> wpl (abind expectIdentifier h) p a Q.
  Proof.
    intros C H. apply s_assoc, s_scan; [exact C|]. intros t r -> Hp. destruct t as [| |[|]|i| | | | | | |]; try exact Logic.I. now apply H.
  Qed.
  Lemma s_maybeIdentifier {B} i (h : bool -> act B) p a Q : clean p ->
    (forall r, a = KIdent i :: r -> clean (KIdent i :: p) -> wpl (h true) (KIdent i :: p) r Q) -> wpl (h false) p a Q -> wpl (abind (maybeIdentifier i) h) p a Q.
  Proof.
    intros C H N. apply s_assoc, s_scan; [exact C|]. intros t r -> Hp. destruct t as [| | |j| | | | | | |]; try exact N.
    destruct (j =? i) eqn:E; [|exact N]. apply Z.eqb_eq in E. subst j. now apply H.
  Qed.
  Lemma rune_is t r : rune_of t = r -> ~ In r [-1; -2; -3; -4; -5; -6; -7; -8; -9; -10] -> t = KRune r.
  Proof. intros <- N. destruct t; cbn in *; try reflexivity; exfalso; apply N; cbn; tauto. Qed.
  Lemma s_expectTokens {B} rs (h : Z -> act B) p a Q : (forall r, In r rs -> ~ In r [-1; -2; -3; -4; -5; -6; -7; -8; -9; -10]) -> clean p ->
    (forall x r, a = KRune x :: r -> In x rs -> clean (KRune x :: p) -> wpl (h x) (KRune x :: p) r Q) -> wpl (abind (expectTokens rs) h) p a Q.
  Proof.
    intros G C H. apply s_assoc, s_scan; [exact C|]. intros t r -> Hp. destruct (existsb _ rs) eqn:E.
    - apply existsb_exists in E. destruct E as (x & I & E). apply Z.eqb_eq in E. apply rune_is in E as K; [|now apply G]. subst t. rewrite <- E in *. now apply H.
    - cbn. now destruct t as [| |[|]| | | | | | | |].
  Qed.
  Lemma s_maybeToken {B} x (h : bool -> act B) p a Q : ~ In x [-1; -2; -3; -4; -5; -6; -7; -8; -9; -10] -> clean p ->
    (forall r, a = KRune x :: r -> clean (KRune x :: p) -> wpl (h true) (KRune x :: p) r Q) ->
    (not_next (fun t => rune_of t =? x) a -> wpl (h false) p a Q) -> wpl (abind (maybeToken x) h) p a Q.
  Proof.
    intros G C H N. apply s_assoc, s_scan; [exact C|]. intros t r -> Hp. destruct (rune_of t =? x) eqn:E.
    - apply Z.eqb_eq in E. apply rune_is in E; [|exact G]. subst t. now apply H.
    - apply s_assoc, s_unscan, N. exact E.
  Qed.
  Lemma s_expectInteger {B} lo hi (h : Z -> act B) p a Q : clean p ->
    (forall i r, a = KInteger i :: r -> lo <= i <= hi -> clean (KInteger i :: p) -> wpl (h i) (KInteger i :: p) r Q) -> wpl (abind (expectInteger lo hi) h) p a Q.
  Proof.
    intros C H. apply s_assoc, s_scan; [exact C|]. intros t r -> Hp. destruct t as [| |[|]| | | | |i| | |]; try exact Logic.I.
    destruct ((i <? lo) || (hi <? i)) eqn:E; [exact Logic.I|]. apply orb_false_iff in E. apply H; [reflexivity|lia|reflexivity].
  Qed.

  (** ** Loops *)

  Inductive looped {S' T} (Go : S' -> list tok -> S' -> Prop) (Stop : S' -> list tok -> T -> list tok -> Prop) : S' -> list tok -> T -> list tok -> Prop :=
  | lp_stop s ts x a : Stop s ts x a -> looped Go Stop s ts x a
  | lp_go s ts s' ts' x a : Go s ts s' -> looped Go Stop s' ts' x a -> looped Go Stop s (ts ++ ts') x a.

  Lemma s_loop {S' T} need (body : S' -> act (S' + T)) Go Stop :
    (forall s, sound_with need (body s) (fun x ts a => match x with inl s' => Go s ts s' | inr y => Stop s ts y a end)) ->
    forall n s, sound_with need (aloop n body s) (fun x ts a => looped Go Stop s ts x a).
  Proof.
    intros HB n. induction n as [|n IH]; intros s p a C N; [exact Logic.I|]. cbn [aloop]. eapply s_with; [apply HB|exact C|exact N|].
    intros x ts a' -> HR C'. destruct x as [s'|y].
    - eapply s_tail_with; [apply IH|exact C'|now apply has_app|]. intros x ts' a'' -> HL C''. apply (s_done (ts ++ ts')); [now rewrite app_assoc|now rewrite rev_app_distr, <- app_assoc|exact C''|]. econstructor; eassumption.
    - exists ts. auto using lp_stop.
  Qed.
End Sound.


Lemma s_pure {A B} id name (x : A) (h : A -> act B) p a Q : wpl id name (h x) p a Q -> wpl id name (abind (ARet x) h) p a Q.
Proof. exact (fun H => H). Qed.
Lemma s_end {A} id name (g : act A) p a Q : wpl id name (abind g ARet) p a Q -> wpl id name g p a Q.
Proof.
  revert p a. induction g as [x| | | |k IH|k IH|k IH|s k IH|i k IH|l k IH|k IH]; intros p a; cbn [wpl abind]; try tauto.
  - intros [H1 H2]. split; [exact H1|]. destruct a; [exact H2|]. intros Hp. now apply IH, H2.
  - destruct p; [easy|apply IH].
  - destruct p; [easy|apply IH].
  - apply IH.
  - intros [H1 H]. split; [exact H1|now apply IH].
  - intros H b. apply IH, H.
Qed.

Ltac inj E := first [ discriminate E | subst | injection E; clear E; intros; subst ].
Ltac good_runes := let x := fresh in let H := fresh in
  try (intros x H; cbn in H; repeat destruct H as [<-|H]; try contradiction); cbn; lia.
Ltac one_of H := cbn in H; repeat (destruct H as [H|H]); try contradiction H; try subst.

(** One action. *)
Ltac st :=
  let E := fresh "E" in let C := fresh "C" in let H := fresh "H" in let N := fresh "N" in
  cbn beta iota zeta;
  lazymatch goal with
  | |- wpl _ _ (abind (abind _ _) _) _ _ _ => apply s_assoc
  | |- wpl _ _ (abind (ARet _) _) _ _ _ => apply s_pure
  | |- wpl _ _ AError _ _ _ => exact Logic.I
  | |- wpl _ _ ACrash _ _ _ => exact Logic.I
  | |- wpl _ _ (abind AError _) _ _ _ => exact Logic.I
  | |- wpl _ _ (abind ACrash _) _ _ _ => exact Logic.I
  | |- wpl _ _ errorGot (_ :: _) _ _ => apply s_got
  | |- wpl _ _ (abind errorGot _) (?t :: _) _ _ => now destruct t as [| |[|]| | | | | | | |]
  | |- wpl _ _ (abind (expectReserved _) _) _ _ _ => apply s_expectReserved; [assumption|intros ? ? E H C; inj E]
  | |- wpl _ _ (abind (optionalReserved _) _) _ _ _ => apply s_optional; [assumption|intros ? ? E H C; inj E|intros N]
  | |- wpl _ _ (abind expectIdentifier _) _ _ _ => apply s_expectIdentifier; [assumption|intros ? ? E C; inj E]
  | |- wpl _ _ (abind (maybeIdentifier _) _) _ _ _ => apply s_maybeIdentifier; [assumption|intros ? E C; inj E|]
  | |- wpl _ _ (abind (expectTokens _) _) _ _ _ => apply s_expectTokens; [good_runes|assumption|intros ? ? E H C; inj E; one_of H]
  | |- wpl _ _ (abind (maybeToken _) _) _ _ _ => apply s_maybeToken; [good_runes|assumption|intros ? E C; inj E|intros N]
  | |- wpl _ _ (abind (expectInteger _ _) _) _ _ _ => apply s_expectInteger; [assumption|intros ? ? E H C; inj E]
  | |- wpl _ _ (abind (intern_ _) _) _ _ _ => apply s_intern
  | |- wpl _ _ (abind scan_ _) _ _ _ => apply s_scan; [assumption|intros ? ? E H; inj E]
  | |- wpl _ _ (abind unscan_ _) (_ :: _) _ _ => apply s_unscan
  | |- wpl _ _ (abind tok_ _) (_ :: _) _ _ => apply s_tok
  | |- wpl _ _ expectIdentifier _ _ _ => apply s_end
  | |- wpl _ _ (expectTokens _) _ _ _ => apply s_end
  end; cbn beta iota zeta.
Ltac lists := repeat first [progress cbn [app rev] | rewrite rev_app_distr | rewrite <- app_assoc]; reflexivity.
(** The end; [l] has been read. *)
Ltac fin l := cbn beta iota zeta; lazymatch goal with |- wpl _ _ (ARet _) _ _ _ => apply s_ret | _ => idtac end;
  cbn beta; apply (s_done l); [lists|lists|first [assumption|exact eq_refl]|].
(** A function that is known to be sound. *)
Tactic Notation "use_" uconstr(lem) "as" simple_intropattern(x) ident(ts) ident(a) simple_intropattern(H) :=
  let E := fresh "E" in let C := fresh "C" in
  first [eapply s_bind; [apply lem|assumption|intros x ts a E H C; inj E; cbn beta iota zeta] | eapply s_tail; [apply lem|assumption|intros x ts a E H C; inj E; cbn beta iota zeta]].
