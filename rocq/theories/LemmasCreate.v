(** What the functions of the parser return, whatever is read. *)

From Verif Require Import ModelParser SpecCreate LemmasBase.

Fixpoint post {A} (g : act A) (P : A -> Prop) : Prop :=
  match g with
  | ARet a => P a
  | AError | ACrash | AFuel => True
  | AScan k => forall t, post (k t) P
  | AUnscan k => post k P
  | ATok k => forall t, post (k t) P
  | AIntern s k => forall i, post (k i) P
  | AName i k => forall s, post (k s) P
  | ABytes l k => forall b, post (k b) P
  | AReader k => forall z, post (k z) P
  end.

Lemma post_mono {A} (g : act A) (P P' : A -> Prop) : (forall a, P a -> P' a) -> post g P -> post g P'.
Proof. intros H. induction g; cbn [post]; auto. Qed.

Lemma post_true {A} (g : act A) : post g (fun _ => True).
Proof. induction g; cbn [post]; auto. Qed.

Lemma post_bind {A B} (g : act A) (h : A -> act B) P : post g (fun a => post (h a) P) -> post (abind g h) P.
Proof. induction g; cbn [post abind]; auto. Qed.

Lemma post_then {A B} (g : act A) (h : A -> act B) P : (forall a, post (h a) P) -> post (abind g h) P.
Proof. intros H. apply post_bind. eapply post_mono; [|apply post_true]. auto. Qed.

Lemma post_loop {S R} (Inv : S -> Prop) (P : R -> Prop) (body : S -> act (S + R)) :
  (forall s, Inv s -> post (body s) (fun x => match x with inl s' => Inv s' | inr r => P r end)) ->
  forall n s, Inv s -> post (aloop n body s) P.
Proof.
  intros H n. induction n as [|n IH]; intros s I; [exact Logic.I|]. cbn [aloop]. apply post_bind. eapply post_mono; [|apply H, I].
  intros [s'|r]; cbn; auto.
Qed.

(** A step that does not matter. *)
Ltac pskip := (apply post_then; intros ?).

Definition key_ok (k : indexkey) : Prop :=
  ik_columns k <> [] /\ NoDup (ik_columns k) /\ length (ik_reverse k) = length (ik_columns k).

Lemma mem_false id ids : mem id ids = false -> ~ In id ids.
Proof. unfold mem. intros H I. enough (existsb (Z.eqb id) ids = true) by congruence. apply existsb_exists. exists id. split; [exact I|apply Z.eqb_refl]. Qed.

Lemma NoDup_snoc {A} (l : list A) a : NoDup l -> ~ In a l -> NoDup (l ++ [a]).
Proof.
  induction l as [|x l IH]; intros H N; cbn; [constructor; auto|]. inversion H; subst. constructor.
  - rewrite in_app_iff. cbn. intros [I|[<-|[]]]; [contradiction|]. apply N. now left.
  - apply IH; [assumption|]. intros I. apply N. now right.
Qed.

Lemma post_parseKey n unique : post (parseKey n unique) (fun k => key_ok k /\ ik_unique k = unique).
Proof.
  unfold parseKey. pskip. apply (post_loop (fun '(cols, rev) => NoDup cols /\ length (rev : list bool) = length (cols : list Z))); [|split; [constructor|reflexivity]].
  intros [cols rev] [H1 H2]. pskip. rename a0 into nam. destruct (mem nam cols) eqn:E; [exact Logic.I|]. apply mem_false in E.
  pskip. apply post_bind. apply (post_mono _ (fun r => length (r : list bool) = S (length cols))).
  - intros r Hr. assert (K : NoDup (cols ++ [nam]) /\ length r = length (cols ++ [nam])) by (split; [now apply NoDup_snoc|rewrite app_length; cbn; lia]).
    pskip. destruct (a1 =? tRParen); cbn [post]; [|exact K]. split; [|reflexivity]. split; [|exact K]. cbn. now destruct cols.
  - destruct a0; cbn [post]; [rewrite app_length; cbn; lia|]. pskip. destruct a0; cbn [post]; rewrite app_length; cbn; lia.
Qed.

Definition tinv (s : ctable) : Prop := table_ok (cb_cols s) (cb_types s) (cb_defaults s) (cb_csts s).

Lemma pairs_snoc {A} (R : A -> A -> Prop) l c : ForallOrdPairs R l -> Forall (fun a => R a c) l -> ForallOrdPairs R (l ++ [c]).
Proof.
  intros H. induction H as [|a l H1 H2 IH]; intros F; cbn; [constructor; constructor|]. inversion F; subst. constructor; [|now apply IH].
  rewrite Forall_app. split; [exact H1|]. now constructor.
Qed.

Lemma keyEqual_spec k1 k2 : length (ik_reverse k1) = length (ik_columns k1) -> length (ik_reverse k2) = length (ik_columns k2) ->
  exists b, keyEqual k1 k2 = Some b /\ (b = true <-> ik_columns k1 = ik_columns k2 /\ ik_reverse k1 = ik_reverse k2).
Proof.
  destruct k1 as [u1 c1 r1], k2 as [u2 c2 r2]. unfold keyEqual. cbn. intros H1 H2. destruct (Nat.eqb_spec (length c1) (length c2)) as [E|E].
  - clear u1 u2. revert r1 r2 c2 H1 H2 E. induction c1 as [|a c1 IH]; intros r1 r2 [|b c2] H1 H2 E; try discriminate; cbn [keyEqualLoop].
    + destruct r1, r2; try discriminate. now exists true.
    + destruct r1 as [|x r1], r2 as [|y r2]; try discriminate. destruct (Z.eqb_spec a b) as [->|N]; cbn [negb].
      * destruct (Bool.eqb_spec x y) as [->|N].
        -- destruct (IH r1 r2 c2) as (q & Q1 & Q2); [now injection H1|now injection H2|now injection E|]. exists q. split; [exact Q1|]. rewrite Q2. split; [intros [-> ->]; auto|].
           intros [K1 K2]. injection K1 as ->. injection K2 as ->. auto.
        -- exists false. split; [reflexivity|]. split; [discriminate|]. intros [_ K]. congruence.
      * exists false. split; [reflexivity|]. split; [discriminate|]. intros [K _]. congruence.
  - exists false. split; [reflexivity|]. split; [discriminate|]. intros [-> _]. congruence.
Qed.

Lemma contype_eqb_spec a b : reflect (a = b) (contype_eqb a b).
Proof. destruct a, b; cbn; constructor; congruence. Qed.

Lemma existsb_false {A} (f : A -> bool) l : existsb f l = false -> Forall (fun a => f a = false) l.
Proof. induction l as [|a l IH]; cbn; intros H; constructor; apply orb_false_iff in H; [tauto|now apply IH]. Qed.

Lemma lengths_key types defaults c : constraint_ok types defaults c -> length (ik_reverse (con_key c)) = length (ik_columns (con_key c)).
Proof. unfold constraint_ok. destruct (con_type c); try tauto; intros H; decompose [and] H; match goal with H : con_key c = noKey |- _ => now rewrite H end. Qed.

Lemma post_checkKeys nkey csts : length (ik_reverse nkey) = length (ik_columns nkey) ->
  Forall (fun c => length (ik_reverse (con_key c)) = length (ik_columns (con_key c))) csts ->
  post (checkKeys nkey csts) (fun _ => Forall (fun c => ik_columns (con_key c) <> ik_columns nkey \/ ik_reverse (con_key c) <> ik_reverse nkey) csts).
Proof.
  intros K F. induction F as [|c csts H F IH]; cbn [checkKeys]; [constructor|].
  destruct (keyEqual_spec nkey (con_key c) K H) as (b & E & S). rewrite E. destruct b; [exact Logic.I|]. eapply post_mono; [|exact IH]. cbv beta. intros _ G. constructor; [|exact G].
  destruct (list_eq_dec Z.eq_dec (ik_columns (con_key c)) (ik_columns nkey)); [|now left].
  destruct (list_eq_dec Bool.bool_dec (ik_reverse (con_key c)) (ik_reverse nkey)); [|now right].
  enough (false = true) by discriminate. apply S. split; congruence.
Qed.

(** The table with a column that is not complete yet. *)
Lemma post_addKeyConstraint s ct cn nkey t d :
  ct = PrimaryConstraint \/ ct = UniqueConstraint -> key_ok nkey -> ik_unique nkey = true ->
  Forall (constraint_ok t d) (cb_csts s) -> ForallOrdPairs may_follow (cb_csts s) ->
  post (addKeyConstraint s ct cn nkey) (fun s' => exists c, s' = add_cst s c /\ constraint_ok t d c /\ Forall (fun a => may_follow a c) (cb_csts s)).
Proof.
  intros Hct (K1 & K2 & K3) Ku Hc Hp. unfold addKeyConstraint.
  destruct (existsb _ (cb_csts s)) eqn:E; [exact Logic.I|]. apply existsb_false in E. apply post_bind.
  eapply post_mono; [|apply post_checkKeys; [exact K3|eapply Forall_impl; [|exact Hc]; apply lengths_key]]. cbv beta. intros _ D. cbn [post].
  eexists. split; [reflexivity|]. split.
  - unfold constraint_ok. destruct Hct as [->| ->]; cbn; auto 10.
  - rewrite Forall_forall in *. intros a I. specialize (E a I). specialize (D a I). apply orb_false_iff in E. destruct E as [E1 E2]. apply Z.eqb_neq in E1.
    unfold may_follow, is_key. cbn. split; [right; congruence|]. split.
    + intros [P1 P2]. rewrite P1, P2 in E2. discriminate.
    + split; [intros _ _; exact D|]. intros [P|P]; destruct Hct; congruence.
Qed.

Lemma post_addColumnConstraint s ct cn num :
  ct = DefaultConstraint \/ ct = NotNullConstraint ->
  post (addColumnConstraint s ct cn num) (fun s' => exists c, s' = add_cst s c /\
    c = {| con_type := ct; con_name := cn; con_colnum := num; con_key := noKey; con_check := None |} /\ Forall (fun a => may_follow a c) (cb_csts s)).
Proof.
  intros Hct. unfold addColumnConstraint.
  destruct (existsb _ (cb_csts s)) eqn:E; [exact Logic.I|]. apply existsb_false in E. cbn [post]. eexists. split; [reflexivity|]. split; [reflexivity|].
  rewrite Forall_forall in *. intros a I. specialize (E a I). apply orb_false_iff in E. destruct E as [E1 E2]. apply Z.eqb_neq in E1.
  unfold may_follow, is_key. cbn. split; [right; congruence|]. split; [intros [_ ->]; destruct Hct; discriminate|]. split; [intros _ [->| ->]; destruct Hct; discriminate|].
  intros _ Ea En. rewrite En, Ea, Z.eqb_refl in E2. destruct (contype_eqb_spec ct ct); [discriminate|congruence].
Qed.

Lemma follow_check l cn num e : Forall (fun a => may_follow a (checkConstraint cn num e)) l.
Proof.
  rewrite Forall_forall. intros a _. unfold may_follow, is_key. cbn. split; [now left|]. split; [intros [_ H]; discriminate|].
  split; [intros _ [H|H]; discriminate|]. intros [H|H]; discriminate.
Qed.

Lemma nth_error_last {A} (l : list A) (a : A) k x : nth_error (l ++ [a]) k = Some x -> nth_error l k = Some x /\ (k < length l)%nat \/ k = length l /\ x = a.
Proof.
  intros H. destruct (Nat.lt_ge_cases k (length l)) as [K|K].
  - rewrite nth_error_app1 in H by exact K. auto.
  - rewrite nth_error_app2 in H by exact K. right. destruct (k - length l)%nat eqn:E; cbn in H; [split; [lia|congruence]|destruct n; discriminate].
Qed.
Lemma nth_error_at {A} (l : list A) (a : A) : nth_error (l ++ [a]) (length l) = Some a.
Proof. rewrite nth_error_app2, Nat.sub_diag by lia. reflexivity. Qed.

Definition grows (ct ct' : coltype) (d d' : option expr) : Prop :=
  (ct_notnull ct = true -> ct_notnull ct' = true) /\ (d <> None -> d' <> None).

Lemma ok_grows types defaults ct ct' d d' c : grows ct ct' d d' ->
  constraint_ok (types ++ [ct]) (defaults ++ [d]) c -> constraint_ok (types ++ [ct']) (defaults ++ [d']) c.
Proof.
  intros [G1 G2]. unfold constraint_ok. destruct (con_type c); try tauto.
  - intros (H1 & H2 & H3 & e & H4). split; [exact H1|]. split; [exact H2|]. split; [exact H3|]. apply nth_error_last in H4. destruct H4 as [[H4 H5]|[H4 H5]].
    + exists e. now rewrite nth_error_app1.
    + destruct d' as [e'|]; [|exfalso; apply G2; congruence]. exists e'. rewrite H4. apply nth_error_at.
  - intros (H1 & H2 & H3 & t & H4 & H5). split; [exact H1|]. split; [exact H2|]. split; [exact H3|]. apply nth_error_last in H4. destruct H4 as [[H4 H6]|[H4 H6]].
    + exists t. now rewrite nth_error_app1.
    + exists ct'. rewrite H4. split; [apply nth_error_at|]. apply G1. congruence.
  - intros (H1 & H2 & H3). split; [exact H1|]. split; [exact H2|]. unfold zlen in *. rewrite app_length in *. exact H3.
Qed.

Lemma tinv_grows s ct ct' d d' : grows ct ct' d d' -> tinv (add_type s ct d) -> tinv (add_type s ct' d').
Proof.
  intros G (H1 & H2 & H3 & H4 & H5). unfold tinv, table_ok, add_type in *. cbn in *. rewrite !app_length in *. cbn [length] in *. split; [exact H1|]. split; [exact H2|]. split; [exact H3|].
  split; [exact H4|]. eapply Forall_impl; [|exact H5]. intros c. now apply ok_grows.
Qed.

Lemma tinv_cst s ct d c : tinv (add_type s ct d) -> constraint_ok (cb_types s ++ [ct]) (cb_defaults s ++ [d]) c -> Forall (fun a => may_follow a c) (cb_csts s) ->
  tinv (add_type (add_cst s c) ct d).
Proof.
  intros (H1 & H2 & H3 & H4 & H5) Hc Hf. unfold tinv, table_ok, add_type, add_cst in *. cbn in *. split; [exact H1|]. split; [exact H2|]. split; [exact H3|].
  split; [now apply pairs_snoc|]. apply Forall_app. split; [exact H5|]. now constructor.
Qed.

Lemma tinv_last s ct d : tinv (add_type s ct d) -> zlen (cb_cols s) - 1 = zlen (cb_types s) /\ length (cb_defaults s) = length (cb_types s).
Proof. intros (H1 & H2 & H3 & _). unfold add_type in *. cbn in *. rewrite app_length in H2, H3. unfold zlen. cbn [length] in *. lia. Qed.

Lemma grows_refl ct d : grows ct ct d d.
Proof. split; auto. Qed.

Lemma post_columnConstraint n nam s ct d : tinv (add_type s ct d) ->
  post (columnConstraint n nam (s, ct, d)) (fun x => match x with inl (s', ct', d') => tinv (add_type s' ct' d') | inr (s', ct', d') => tinv (add_type s' ct' d') end).
Proof.
  intros I. destruct (tinv_last _ _ _ I) as [L1 L2]. unfold columnConstraint. rewrite L1. pskip. rename a into cn. pskip. destruct a.
  { destruct d as [d|]; [exact Logic.I|]. apply post_bind. apply (post_mono _ (fun s' => forall e, tinv (add_type s' ct (Some e)))).
    - intros s' Hs. pskip. cbn [post]. apply Hs.
    - assert (I2 : forall e, tinv (add_type s ct (Some e))) by (intros e; eapply tinv_grows; [|exact I]; split; [auto|discriminate]).
      destruct (cn =? 0); [exact I2|]. eapply post_mono; [|apply post_addColumnConstraint; now left]. intros s' (c & -> & -> & Hf) e. apply tinv_cst; [apply I2| |exact Hf].
      unfold constraint_ok. cbn. split; [reflexivity|]. split; [reflexivity|]. split; [unfold zlen; lia|]. exists e. unfold zlen. rewrite Nat2Z.id, <- L2. apply nth_error_at. }
  pskip. destruct a.
  { pskip. destruct (ct_notnull ct) eqn:En; [exact Logic.I|].
    assert (I2 : tinv (add_type s (set_notnull ct) d)) by (eapply tinv_grows; [|exact I]; split; [auto|auto]).
    apply post_bind. apply (post_mono _ (fun s' => tinv (add_type s' (set_notnull ct) d))); [intros s' Hs; exact Hs|].
    destruct (cn =? 0); [exact I2|]. eapply post_mono; [|apply post_addColumnConstraint; now right]. intros s' (c & -> & -> & Hf). apply tinv_cst; [apply I2| |exact Hf].
    unfold constraint_ok. cbn. split; [reflexivity|]. split; [reflexivity|]. split; [unfold zlen; lia|]. exists (set_notnull ct). unfold zlen. rewrite Nat2Z.id. split; [apply nth_error_at|reflexivity]. }
  assert (Key : forall cn' kt, kt = PrimaryConstraint \/ kt = UniqueConstraint -> post (addKeyConstraint s kt cn' (columnKey nam)) (fun s' => tinv (add_type s' ct d))).
  { intros cn' kt Hk. eapply post_mono; [|apply post_addKeyConstraint with (t := cb_types s ++ [ct]) (d := cb_defaults s ++ [d]); [exact Hk| | |apply I|apply I]].
    - intros s' (c & -> & Hc & Hf). now apply tinv_cst.
    - unfold key_ok. cbn. split; [discriminate|]. split; [constructor; [auto|constructor]|reflexivity].
    - reflexivity. }
  pskip. destruct a. { pskip. pskip. apply post_bind. eapply post_mono; [|apply Key; now left]. intros s' Hs. exact Hs. }
  pskip. destruct a. { pskip. apply post_bind. eapply post_mono; [|apply Key; now right]. intros s' Hs. exact Hs. }
  pskip. destruct a.
  { pskip. pskip. pskip. cbn [post]. apply tinv_cst; [exact I| |apply follow_check]. unfold constraint_ok. cbn. split; [eauto|]. split; [reflexivity|]. unfold zlen. rewrite app_length. cbn. lia. }
  pskip. destruct a; [|destruct (cn =? 0); [exact I|exact Logic.I]].
  pskip. pskip. pskip. pskip. cbn [post]. exact I.
Qed.

Lemma tinv_new s nam ct : tinv s -> mem nam (cb_cols s) = false -> tinv (add_type (add_col s nam) ct None).
Proof.
  intros I E. apply mem_false in E.
  destruct I as (H1 & H2 & H3 & H4 & H5). unfold tinv, table_ok, add_type, add_col. cbn. rewrite !app_length. cbn [length]. split; [now apply NoDup_snoc|]. split; [lia|]. split; [lia|]. split; [exact H4|].
  eapply Forall_impl; [|exact H5]. intros c. unfold constraint_ok. destruct (con_type c); try tauto.
  - intros (K1 & K2 & K3 & e & K4). split; [exact K1|]. split; [exact K2|]. split; [exact K3|]. exists e. rewrite nth_error_app1; [exact K4|]. apply nth_error_Some. congruence.
  - intros (K1 & K2 & K3 & t & K4 & K5). split; [exact K1|]. split; [exact K2|]. split; [exact K3|]. exists t. rewrite nth_error_app1; [auto|]. apply nth_error_Some. congruence.
  - intros (K1 & K2 & K3). split; [exact K1|]. split; [exact K2|]. unfold zlen in *. rewrite app_length. cbn. lia.
Qed.

Lemma post_parseColumn n s : tinv s -> post (parseColumn n s) tinv.
Proof.
  intros I. unfold parseColumn. pskip. rename a into nam. destruct (mem nam (cb_cols s)) eqn:E; [exact Logic.I|]. pskip. rename a into ct.
  apply post_bind. eapply post_mono; [|apply (post_loop (fun '(s, ct, d) => tinv (add_type s ct d)) (fun '(s, ct, d) => tinv (add_type s ct d)))].
  - intros [[s' ct'] d'] H. exact H.
  - intros [[s' ct'] d'] H. apply (post_columnConstraint n nam), H.
  - now apply tinv_new.
Qed.

Lemma tinv_add s c : tinv s -> constraint_ok (cb_types s) (cb_defaults s) c -> Forall (fun a => may_follow a c) (cb_csts s) -> tinv (add_cst s c).
Proof.
  intros (H1 & H2 & H3 & H4 & H5) Hc Hf. unfold tinv, table_ok, add_cst in *. cbn in *. split; [exact H1|]. split; [exact H2|]. split; [exact H3|].
  split; [now apply pairs_snoc|]. apply Forall_app. split; [exact H5|]. now constructor.
Qed.

Lemma post_createDetail n s : tinv s -> post (createDetail n s) tinv.
Proof.
  intros I. unfold createDetail. pskip. rename a into cn.
  assert (Key : forall suffix kt, kt = PrimaryConstraint \/ kt = UniqueConstraint ->
    post (let+ key := parseKey n true in let+ cn := makeKeyConstraintName cn key suffix in addKeyConstraint s kt cn key) tinv).
  { intros suffix kt Hk. apply post_bind. eapply post_mono; [|apply post_parseKey]. intros key [K1 K2]. pskip.
    eapply post_mono; [|apply post_addKeyConstraint with (t := cb_types s) (d := cb_defaults s); [exact Hk|exact K1|exact K2|apply I|apply I]].
    intros s' (c & -> & Hc & Hf). now apply tinv_add. }
  pskip. destruct a. { pskip. apply Key. now left. }
  pskip. destruct a. { apply Key. now right. }
  pskip. destruct a. { pskip. pskip. pskip. cbn [post]. apply tinv_add; [exact I| |apply follow_check]. unfold constraint_ok. cbn. split; [eauto|]. split; [reflexivity|]. unfold zlen. lia. }
  pskip. destruct a. { pskip. pskip. cbn [post]. exact I. }
  destruct (cn =? 0); [now apply post_parseColumn|exact Logic.I].
Qed.

Lemma tinv_no : tinv noTable.
Proof. split; [constructor|]. split; [reflexivity|]. split; [reflexivity|]. split; constructor. Qed.

Lemma post_parseCreateDetails n : post (parseCreateDetails n) tinv.
Proof.
  unfold parseCreateDetails. apply (post_loop tinv); [|exact tinv_no]. intros s I. apply post_bind. eapply post_mono; [|now apply post_createDetail].
  intros s' I'. pskip. destruct (a =? tRParen); exact I'.
Qed.

Definition stmt_ok (s : option stmt) : Prop :=
  forall tn cols types defaults ine csts fks, s = Some (SCreateTable tn cols types defaults ine csts fks) -> table_ok cols types defaults csts.

Lemma stmt_ok_not s : (forall tn cols types defaults ine csts fks, s <> SCreateTable tn cols types defaults ine csts fks) -> stmt_ok (Some s).
Proof. intros H tn cols types defaults ine csts fks E. injection E as E. now apply H in E. Qed.

Lemma post_parseCreateTable n : post (parseCreateTable n) (fun s => stmt_ok (Some s)).
Proof.
  unfold parseCreateTable. pskip. pskip. pskip. apply post_bind. eapply post_mono; [|apply post_parseCreateDetails]. intros s I. cbn [post].
  intros tn cols types defaults ine csts fks E. injection E as <- <- <- <- <- <- <-. exact I.
Qed.

Section Post.
  Context {X : FloatLib} {P : PrintLib}.
  Ltac pdone := cbn [post]; apply stmt_ok_not; discriminate.

  Lemma post_loop_any {S R} (P' : R -> Prop) n (body : S -> act (S + R)) s :
    (forall s, post (body s) (fun x => match x with inl _ => True | inr r => P' r end)) -> post (aloop n body s) P'.
  Proof. intros H. apply (post_loop (fun _ => True)); auto. Qed.

  Lemma post_parseShow : post parseShow (fun s => stmt_ok (Some s)).
  Proof.
    unfold parseShow. pskip. destruct a; try exact Logic.I.
    all: repeat first [pdone | (apply post_then; intros [? ?]) | pskip | match goal with |- post (if ?b then _ else _) _ => destruct b end].
  Qed.

  Lemma post_parseStmtOf n kw : post (parseStmtOf n kw) stmt_ok.
  Proof.
    assert (Some_ : forall g : act stmt, post g (fun s => stmt_ok (Some s)) -> post (let+ s := g in ARet (Some s)) stmt_ok) by (intros g H; apply post_bind; exact H).
    unfold parseStmtOf. cbv zeta.
    repeat match goal with |- post (if ?b then _ else _) _ => destruct b end.
    all: repeat match goal with
      | |- post (abind (expectReserved _) _) _ => pskip
      | |- post (if ?b then _ else _) _ => destruct b
      end.
    all: try (cbn [post]; apply stmt_ok_not; discriminate).
    all: try (cbn [post]; intros ? ? ? ? ? ? ?; discriminate).
    all: try (apply Some_; first [apply post_parseCreateTable | apply post_parseShow]).
    all: apply Some_; unfold parseAlterTable, parseCopy, parseCreateDatabase, parseCreateIndex, parseCreateSchema, parseDelete, parseDropDatabase, parseDropIndex, parseDropSchema, parseDropTable, parseExplain, parseInsert, parseSelect, parseSelect_, parseSet, parseUpdate, parseUse, parseValues, parseValues_.
    all: repeat first [pdone | exact Logic.I | match goal with
      | |- post (aloop _ _ _) _ => apply post_loop_any; intros ?
      | |- post (abind _ _) _ => pskip
      | |- post (AReader _) _ => cbn [post]; intros ?
      | |- post (if ?b then _ else _) _ => destruct b
      end].
  Qed.

  Lemma post_parseWhole n : post (parseWhole n) stmt_ok.
  Proof.
    unfold parseWhole, parseStmt. apply post_bind. apply post_then. intros b. destruct b.
    - cbn [post]. pskip. intros ? ? ? ? ? ? ?. discriminate.
    - apply post_then. intros kw. eapply post_mono; [|apply post_parseStmtOf]. intros s H. pskip. exact H.
  Qed.
End Post.
