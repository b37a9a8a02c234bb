(** The parser on a list of tokens: all that matters of the table of identifiers is
    given. *)

From Verif Require Import ModelParser SpecGrammar LemmasBase.

Definition is_name (id : Z) (t : tok) : bool := match t with KIdent i => i =? id | _ => false end.

Section ListRun.
  Variable id : bytes -> Z.
  Variable name : Z -> bytes.

  Fixpoint lrun {A} (g : act A) (past ahead : list tok) : option (A * list tok * list tok) :=
    match g with
    | ARet a => Some (a, past, ahead)
    | AError | ACrash | AFuel => None
    | AScan k => match ahead with [] => None | t :: r => lrun (k t) (t :: past) r end
    | AUnscan k => match past with [] => None | t :: p => lrun k p (t :: ahead) end
    | ATok k => match past with [] => None | t :: _ => lrun (k t) past ahead end
    | AIntern s k => lrun (k (id s)) past ahead
    | AName i k => if existsb (is_name i) past then lrun (k (name i)) past ahead else None
    | ABytes _ _ | AReader _ => None
    end.

  Lemma lrun_assoc {A B C} (g : act A) (h : A -> act B) (k : B -> act C) : forall p a,
    lrun (abind (abind g h) k) p a = lrun (abind g (fun x => abind (h x) k)) p a.
  Proof.
    induction g as [x| | | |kk IH|kk IH|kk IH|s kk IH|i kk IH|l kk IH|kk IH]; intros p a; cbn [abind lrun]; try reflexivity.
    - destruct a; [reflexivity|apply IH].
    - destruct p; [reflexivity|apply IH].
    - destruct p; [reflexivity|apply IH].
    - apply IH.
    - destruct (existsb (is_name i) p); [apply IH|reflexivity].
  Qed.

  (** [g] reads the tokens [ts] and gives [x], whatever follows, if it may follow. *)
  Definition reads {A} (g : act A) (ts : list tok) (x : A) (F : list tok -> Prop) : Prop :=
    forall (B : Type) (h : A -> act B) p rest, F rest -> lrun (abind g h) p (ts ++ rest) = lrun (h x) (rev ts ++ p) rest.

  Section Steps.
    Context {B : Type}.
    Variables (p a : list tok).

    Lemma l_ret {A} (x : A) (h : A -> act B) : lrun (abind (ARet x) h) p a = lrun (h x) p a.
    Proof. reflexivity. Qed.
    Lemma l_scan t (h : tok -> act B) : lrun (abind scan_ h) p (t :: a) = lrun (h t) (t :: p) a.
    Proof. reflexivity. Qed.
    Lemma l_unscan t (h : unit -> act B) : lrun (abind unscan_ h) (t :: p) a = lrun (h tt) p (t :: a).
    Proof. reflexivity. Qed.
    Lemma l_tok t (h : tok -> act B) : lrun (abind tok_ h) (t :: p) a = lrun (h t) (t :: p) a.
    Proof. reflexivity. Qed.
    Lemma l_intern s (h : Z -> act B) : lrun (abind (intern_ s) h) p a = lrun (h (id s)) p a.
    Proof. reflexivity. Qed.
    Lemma l_name i (h : bytes -> act B) : In (KIdent i) p -> lrun (abind (name_ i) h) p a = lrun (h (name i)) p a.
    Proof.
      intros H. cbn. replace (existsb (is_name i) p) with true; [reflexivity|]. symmetry. apply existsb_exists. exists (KIdent i). split; [exact H|]. cbn. apply Z.eqb_refl.
    Qed.

    Lemma l_expectReserved ids i (h : Z -> act B) : existsb (Z.eqb i) ids = true ->
      lrun (abind (expectReserved ids) h) p (KReserved i :: a) = lrun (h i) (KReserved i :: p) a.
    Proof. intros H. unfold expectReserved. rewrite lrun_assoc, l_scan. cbn [is_reserved]. now rewrite H. Qed.
    Lemma l_optional_yes ids t (h : bool -> act B) : is_reserved t ids = true ->
      lrun (abind (optionalReserved ids) h) p (t :: a) = lrun (h true) (t :: p) a.
    Proof. intros H. unfold optionalReserved. rewrite lrun_assoc, l_scan. now rewrite H. Qed.
    Lemma l_optional_no ids t (h : bool -> act B) : is_reserved t ids = false ->
      lrun (abind (optionalReserved ids) h) p (t :: a) = lrun (h false) p (t :: a).
    Proof. intros H. unfold optionalReserved. rewrite lrun_assoc, l_scan. rewrite H. rewrite lrun_assoc, l_unscan. reflexivity. Qed.
    Lemma l_expectIdentifier i (h : Z -> act B) : lrun (abind expectIdentifier h) p (KIdent i :: a) = lrun (h i) (KIdent i :: p) a.
    Proof. unfold expectIdentifier. rewrite lrun_assoc, l_scan. reflexivity. Qed.
    Lemma l_maybeIdentifier_yes i (h : bool -> act B) : lrun (abind (maybeIdentifier i) h) p (KIdent i :: a) = lrun (h true) (KIdent i :: p) a.
    Proof. unfold maybeIdentifier. rewrite lrun_assoc, l_scan. now rewrite Z.eqb_refl. Qed.
    Lemma l_maybeIdentifier_no i t (h : bool -> act B) : is_name i t = false -> lrun (abind (maybeIdentifier i) h) p (t :: a) = lrun (h false) p (t :: a).
    Proof.
      intros H. unfold maybeIdentifier. rewrite lrun_assoc, l_scan. destruct t; try (rewrite lrun_assoc, l_unscan; reflexivity).
      cbn [is_name] in H. rewrite H. rewrite lrun_assoc, l_unscan. reflexivity.
    Qed.
    Lemma l_expectTokens rs t (h : Z -> act B) : existsb (Z.eqb (rune_of t)) rs = true ->
      lrun (abind (expectTokens rs) h) p (t :: a) = lrun (h (rune_of t)) (t :: p) a.
    Proof. intros H. unfold expectTokens. rewrite lrun_assoc, l_scan. now rewrite H. Qed.
    Lemma l_maybe_yes r t (h : bool -> act B) : rune_of t = r ->
      lrun (abind (maybeToken r) h) p (t :: a) = lrun (h true) (t :: p) a.
    Proof. intros <-. unfold maybeToken. rewrite lrun_assoc, l_scan. now rewrite Z.eqb_refl. Qed.
    Lemma l_maybe_no r t (h : bool -> act B) : rune_of t <> r ->
      lrun (abind (maybeToken r) h) p (t :: a) = lrun (h false) p (t :: a).
    Proof. intros H. unfold maybeToken. rewrite lrun_assoc, l_scan. apply Z.eqb_neq in H. rewrite H. rewrite lrun_assoc, l_unscan. reflexivity. Qed.
    Lemma l_expectInteger lo hi i (h : Z -> act B) : lo <= i <= hi ->
      lrun (abind (expectInteger lo hi) h) p (KInteger i :: a) = lrun (h i) (KInteger i :: p) a.
    Proof.
      intros H. unfold expectInteger. rewrite lrun_assoc, l_scan. replace ((i <? lo) || (hi <? i)) with false; [reflexivity|].
      symmetry. apply orb_false_iff. split; apply Z.ltb_ge; lia.
    Qed.
    Lemma l_expectEnd t (h : unit -> act B) : t = KEnd \/ t = KEOF ->
      lrun (abind expectEndOfStatement h) p (t :: a) = lrun (h tt) (t :: p) a.
    Proof. intros [->| ->]; unfold expectEndOfStatement; rewrite lrun_assoc, l_scan; reflexivity. Qed.
    Lemma l_loop {S T} n (body : S -> act (S + T)) s (h : T -> act B) :
      lrun (abind (aloop (Datatypes.S n) body s) h) p a =
      lrun (abind (body s) (fun x => abind (match x with inl s' => aloop n body s' | inr r => ARet r end) h)) p a.
    Proof. cbn [aloop]. apply lrun_assoc. Qed.
  End Steps.

  Lemma reads_use {A B} (g : act A) ts x F (h : A -> act B) p a rest : reads g ts x F -> F rest -> a = ts ++ rest ->
    lrun (abind g h) p a = lrun (h x) (rev ts ++ p) rest.
  Proof. intros H K ->. now apply H. Qed.
  Lemma reads_mono {A} (g : act A) ts x (F G : list tok -> Prop) : reads g ts x F -> (forall l, G l -> F l) -> reads g ts x G.
  Proof. intros H K B h p rest Hr. apply H. now apply K. Qed.
End ListRun.
