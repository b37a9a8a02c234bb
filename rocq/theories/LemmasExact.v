(** The parser succeeds on a list of tokens, whatever bytes are in the scanner's
    buffer. *)

From Verif Require Import ModelParser SpecGrammar LemmasBase LemmasListRun LemmasGrammar.

Section Exact.
  Variable id : bytes -> Z.
  Variable name : Z -> bytes.
  (** How many tokens are left. *)
  Variable over : nat.

  Fixpoint lwp {A} (g : act A) (past ahead : list tok) : Prop :=
    match g with
    | ARet _ => length ahead = over
    | AError | ACrash | AFuel => False
    | AScan k => match ahead with [] => False | t :: r => lwp (k t) (t :: past) r end
    | AUnscan k => match past with [] => False | t :: p => lwp k p (t :: ahead) end
    | ATok k => match past with [] => False | t :: _ => lwp (k t) past ahead end
    | AIntern s k => lwp (k (id s)) past ahead
    | AName i k => existsb (is_name i) past = true /\ lwp (k (name i)) past ahead
    | ABytes _ k => forall b, lwp (k b) past ahead
    | AReader _ => False
    end.

  Lemma w_assoc {A B C} (g : act A) (h : A -> act B) (k : B -> act C) : forall p a,
    lwp (abind g (fun x => abind (h x) k)) p a -> lwp (abind (abind g h) k) p a.
  Proof.
    induction g as [x| | | |kk IH|kk IH|kk IH|s kk IH|i kk IH|l kk IH|kk IH]; intros p a; cbn [abind lwp]; try exact (fun H => H).
    - destruct a; [exact (fun H => H)|apply IH].
    - destruct p; [exact (fun H => H)|apply IH].
    - destruct p; [exact (fun H => H)|apply IH].
    - apply IH.
    - intros [H K]. split; [exact H|now apply IH].
    - intros H b. now apply IH.
  Qed.

  (** [g] reads the tokens [ts], whatever follows, if it may follow; what it gives is [G]. *)
  Definition takes {A} (g : act A) (ts : list tok) (G : A -> Prop) (F : list tok -> Prop) : Prop :=
    forall (B : Type) (h : A -> act B) p rest, F rest -> (forall x, G x -> lwp (h x) (rev ts ++ p) rest) -> lwp (abind g h) p (ts ++ rest).

  Section Steps.
    Context {B : Type}.
    Variables (p a : list tok).

    Lemma w_ret {A} (x : A) (h : A -> act B) : lwp (h x) p a -> lwp (abind (ARet x) h) p a.
    Proof. exact (fun H => H). Qed.
    Lemma w_scan t (h : tok -> act B) : lwp (h t) (t :: p) a -> lwp (abind scan_ h) p (t :: a).
    Proof. exact (fun H => H). Qed.
    Lemma w_unscan t (h : unit -> act B) : lwp (h tt) p (t :: a) -> lwp (abind unscan_ h) (t :: p) a.
    Proof. exact (fun H => H). Qed.
    Lemma w_tok t (h : tok -> act B) : lwp (h t) (t :: p) a -> lwp (abind tok_ h) (t :: p) a.
    Proof. exact (fun H => H). Qed.
    Lemma w_intern s (h : Z -> act B) : lwp (h (id s)) p a -> lwp (abind (intern_ s) h) p a.
    Proof. exact (fun H => H). Qed.
    Lemma w_bytes l (h : bytes -> act B) : (forall b, lwp (h b) p a) -> lwp (abind (ABytes l ARet) h) p a.
    Proof. exact (fun H => H). Qed.
    Lemma w_name i (h : bytes -> act B) : In (KIdent i) p -> lwp (h (name i)) p a -> lwp (abind (name_ i) h) p a.
    Proof. intros H K. cbn. split; [|exact K]. apply existsb_exists. exists (KIdent i). split; [exact H|]. cbn. apply Z.eqb_refl. Qed.
    Lemma w_loop {S T} n (body : S -> act (S + T)) s (h : T -> act B) :
      lwp (abind (body s) (fun x => abind (match x with inl s' => aloop n body s' | inr r => ARet r end) h)) p a ->
      lwp (abind (aloop (Datatypes.S n) body s) h) p a.
    Proof. cbn [aloop]. apply w_assoc. Qed.
    Lemma w_expectReserved ids i (h : Z -> act B) : existsb (Z.eqb i) ids = true ->
      lwp (h i) (KReserved i :: p) a -> lwp (abind (expectReserved ids) h) p (KReserved i :: a).
    Proof. intros H K. unfold expectReserved. apply w_assoc, w_scan. cbn [is_reserved]. now rewrite H. Qed.
    Lemma w_optional_yes ids t (h : bool -> act B) : is_reserved t ids = true -> lwp (h true) (t :: p) a -> lwp (abind (optionalReserved ids) h) p (t :: a).
    Proof. intros H K. unfold optionalReserved. apply w_assoc, w_scan. now rewrite H. Qed.
    Lemma w_optional_no ids t (h : bool -> act B) : is_reserved t ids = false -> lwp (h false) p (t :: a) -> lwp (abind (optionalReserved ids) h) p (t :: a).
    Proof. intros H K. unfold optionalReserved. apply w_assoc, w_scan. rewrite H. now apply w_assoc, w_unscan. Qed.
    Lemma w_expectIdentifier i (h : Z -> act B) : lwp (h i) (KIdent i :: p) a -> lwp (abind expectIdentifier h) p (KIdent i :: a).
    Proof. intros K. unfold expectIdentifier. now apply w_assoc, w_scan. Qed.
    Lemma w_expectTokens rs t (h : Z -> act B) : existsb (Z.eqb (rune_of t)) rs = true -> lwp (h (rune_of t)) (t :: p) a -> lwp (abind (expectTokens rs) h) p (t :: a).
    Proof. intros H K. unfold expectTokens. apply w_assoc, w_scan. now rewrite H. Qed.
    Lemma w_maybe_yes r t (h : bool -> act B) : rune_of t = r -> lwp (h true) (t :: p) a -> lwp (abind (maybeToken r) h) p (t :: a).
    Proof. intros <- K. unfold maybeToken. apply w_assoc, w_scan. now rewrite Z.eqb_refl. Qed.
    Lemma w_maybe_no r t (h : bool -> act B) : rune_of t <> r -> lwp (h false) p (t :: a) -> lwp (abind (maybeToken r) h) p (t :: a).
    Proof. intros H K. unfold maybeToken. apply w_assoc, w_scan. apply Z.eqb_neq in H. rewrite H. now apply w_assoc, w_unscan. Qed.
    Lemma w_expectEnd t (h : unit -> act B) : t = KEnd \/ t = KEOF -> lwp (h tt) (t :: p) a -> lwp (abind expectEndOfStatement h) p (t :: a).
    Proof. intros [->| ->] K; unfold expectEndOfStatement; now apply w_assoc, w_scan. Qed.
  End Steps.
  Lemma w_optional_no' {B} p a ids (h : bool -> act B) : next (no_word ids) a -> lwp (h false) p a -> lwp (abind (optionalReserved ids) h) p a.
  Proof. destruct a as [|t a]; [contradiction|]. apply w_optional_no. Qed.
  Lemma w_maybe_no' {B} p a r (h : bool -> act B) : next (no_rune r) a -> lwp (h false) p a -> lwp (abind (maybeToken r) h) p a.
  Proof. destruct a as [|t a]; [contradiction|]. apply w_maybe_no. Qed.

  Lemma w_past {A} (g : act A) p p' a : lwp g p a -> p = p' -> lwp g p' a.
  Proof. now intros H <-. Qed.
  Lemma takes_use {A B} (g : act A) ts G F (h : A -> act B) p a rest : takes g ts G F -> a = ts ++ rest -> F rest ->
    (forall x, G x -> lwp (h x) (rev ts ++ p) rest) -> lwp (abind g h) p a.
  Proof. intros H -> K. now apply H. Qed.
  Lemma takes_mono {A} (g : act A) ts (G G' : A -> Prop) (F F' : list tok -> Prop) : takes g ts G F -> (forall x, G x -> G' x) -> (forall l, F' l -> F l) -> takes g ts G' F'.
  Proof. intros H K K' B h p rest Hr Hk. apply H; auto. Qed.

  Lemma w_assoc_back {A B C} (g : act A) (h : A -> act B) (k : B -> act C) : forall p a,
    lwp (abind (abind g h) k) p a -> lwp (abind g (fun x => abind (h x) k)) p a.
  Proof.
    induction g as [x| | | |kk IH|kk IH|kk IH|s kk IH|i kk IH|l kk IH|kk IH]; intros p a; cbn [abind lwp]; try exact (fun K => K).
    - destruct a; [exact (fun K => K)|apply IH].
    - destruct p; [exact (fun K => K)|apply IH].
    - destruct p; [exact (fun K => K)|apply IH].
    - apply IH.
    - intros [K1 K2]. split; [exact K1|now apply IH].
    - intros K b. now apply IH.
  Qed.
  Lemma w_ext {A B} (m : act A) (f g : A -> act B) : (forall x p a, lwp (f x) p a -> lwp (g x) p a) -> forall p a, lwp (abind m f) p a -> lwp (abind m g) p a.
  Proof.
    intros H. induction m as [x| | | |kk IH|kk IH|kk IH|s kk IH|i kk IH|l kk IH|kk IH]; intros p a; cbn [abind lwp]; try exact (fun K => K).
    - apply H.
    - destruct a; [exact (fun K => K)|apply IH].
    - destruct p; [exact (fun K => K)|apply IH].
    - destruct p; [exact (fun K => K)|apply IH].
    - apply IH.
    - intros [K1 K2]. split; [exact K1|now apply IH].
    - intros K b. now apply IH.
  Qed.

  (** What gives a certain result succeeds. *)
  Lemma lrun_lwp {A B} (g : act A) (h : A -> act B) : forall p a x p' a', lrun id name g p a = Some (x, p', a') -> lwp (h x) p' a' -> lwp (abind g h) p a.
  Proof.
    induction g as [x| | | |kk IH|kk IH|kk IH|s kk IH|i kk IH|l kk IH|kk IH]; intros p a x0 p' a'; cbn [abind lwp lrun]; try discriminate.
    - now intros [= <- <- <-].
    - destruct a; [discriminate|apply IH].
    - destruct p; [discriminate|apply IH].
    - destruct p; [discriminate|apply IH].
    - apply IH.
    - destruct (existsb (is_name i) p); [|discriminate]. intros H K. split; [reflexivity|]. eapply IH; eassumption.
  Qed.
  Lemma abind_ret {A} (g : act A) : forall p a, lrun id name (abind g ARet) p a = lrun id name g p a.
  Proof.
    induction g as [x| | | |kk IH|kk IH|kk IH|s kk IH|i kk IH|l kk IH|kk IH]; intros p a; cbn [abind lrun]; try reflexivity.
    - destruct a; [reflexivity|apply IH].
    - destruct p; [reflexivity|apply IH].
    - destruct p; [reflexivity|apply IH].
    - apply IH.
    - destruct (existsb (is_name i) p); [apply IH|reflexivity].
  Qed.
  Lemma reads_takes {A} (g : act A) ts x F : reads id name g ts x F -> takes g ts (eq x) F.
  Proof.
    intros H B h p rest Hr K. apply (lrun_lwp g h p (ts ++ rest) x (rev ts ++ p) rest); [|now apply K].
    rewrite <- abind_ret. now rewrite (H A ARet p rest Hr).
  Qed.
  Lemma w_same {A B} (g : act A) (h : A -> act B) p a x p' a' : lrun id name (abind g ARet) p a = lrun id name (ARet x) p' a' -> lwp (h x) p' a' -> lwp (abind g h) p a.
  Proof. rewrite abind_ret. cbn [lrun]. apply lrun_lwp. Qed.
End Exact.

(** One step of the parser. *)
Ltac wside := first [assumption | reflexivity | discriminate].
Ltac wstep1 :=
  lazymatch goal with
  | |- lwp _ _ _ (abind (abind _ _) _) _ _ => apply w_assoc
  | |- lwp _ _ _ (abind (ARet _) _) _ _ => apply w_ret
  | |- lwp _ _ _ (abind scan_ _) _ (_ :: _) => apply w_scan
  | |- lwp _ _ _ (abind unscan_ _) (_ :: _) _ => apply w_unscan
  | |- lwp _ _ _ (abind tok_ _) (_ :: _) _ => apply w_tok
  | |- lwp _ _ _ (abind (intern_ _) _) _ _ => apply w_intern
  | |- lwp _ _ _ (abind expectIdentifier _) _ (KIdent _ :: _) => apply w_expectIdentifier
  | |- lwp _ _ _ (abind (expectReserved _) _) _ (KReserved _ :: _) => apply w_expectReserved; [reflexivity|]
  | |- lwp _ _ _ (abind (optionalReserved _) _) _ (_ :: _) => first [apply w_optional_no; [wside|] | apply w_optional_yes; [wside|]]
  | |- lwp _ _ _ (abind (maybeToken _) _) _ (_ :: _) => first [apply w_maybe_yes; [wside|] | apply w_maybe_no; [wside|]]
  | |- lwp _ _ _ (abind (expectTokens _) _) _ (_ :: _) => apply w_expectTokens; [wside|]
  | |- lwp _ _ _ (abind (aloop (S _) _ _) _) _ _ => apply w_loop
  end; lred.
Ltac wsteps := repeat wstep1.
(** By what is known of [g]. *)
Ltac wuse H := wsteps; eapply (takes_use _ _ _ _ _ _ _ _ _ _ _ H); [norm_toks; reflexivity|idtac|lred].
Ltac wpast := repeat (progress (cbn [rev app]; rewrite ?rev_app_distr, <- ?app_assoc)); try reflexivity.
(** The end. *)
Ltac over K := refine (w_past _ _ _ _ _ _ _ (K _ _) _); [|wpast; reflexivity].
