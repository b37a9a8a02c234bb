(** Proofs for property C69. *)

From Verif Require Import ModelEngine SpecAny LemmasBase.

Lemma runs_ret {A} (r0 r : res A) h : runs (PRet r0) h r -> h = [] /\ r = r0.
Proof. intros H. remember (PRet r0) as p eqn:E. destruct H; try discriminate E. now injection E as ->. Qed.
Lemma runs_call {A} c (k : outcome -> nat -> nat -> prog A) h r : runs (PCall c k) h r ->
  exists o i n h1, h = (c, o, i) :: h1 /\ runs (k o i n) h1 r.
Proof. intros H. remember (PCall c k) as p eqn:E. destruct H; try discriminate E. injection E as -> ->. now exists o, i, n, h. Qed.
Lemma runs_id {A} s q (k : Z -> prog A) h r : runs (PID s q k) h r -> exists id, runs (k id) h r.
Proof. intros H. remember (PID s q k) as p eqn:E. destruct H; try discriminate E. injection E as -> -> ->. now exists id. Qed.
Lemma runs_name {A} i (k : bytes -> prog A) h r : runs (PName i k) h r -> exists s, runs (k s) h r.
Proof. intros H. remember (PName i k) as p eqn:E. destruct H; try discriminate E. injection E as -> ->. now exists s. Qed.

Lemma runs_pthen {A B} (k : res A -> prog B) p : forall h r, runs (pthen p k) h r -> exists h1 r1 h2, runs p h1 r1 /\ runs (k r1) h2 r /\ h = h1 ++ h2.
Proof.
  induction p as [r0|c f IH|s q f IH|i f IH]; intros h r H; cbn [pthen] in H.
  - exists [], r0, h. split; [constructor|]. auto.
  - apply runs_call in H as (o & i & n & h1 & -> & H). apply IH in H as (h2 & r1 & h3 & H1 & H2 & ->). exists ((c, o, i) :: h2), r1, h3. split; [now apply run_call with n|]. auto.
  - apply runs_id in H as (id & H). apply IH in H as (h2 & r1 & h3 & H1 & H2 & ->). exists h2, r1, h3. split; [now apply run_id with id|]. auto.
  - apply runs_name in H as (s & H). apply IH in H as (h2 & r1 & h3 & H1 & H2 & ->). exists h2, r1, h3. split; [now apply run_name with s|]. auto.
Qed.

Lemma runs_pbind {A B} (p : prog A) (k : A -> prog B) h r : runs (pbind p k) h r ->
  (exists a h1 h2, runs p h1 (Ok a) /\ runs (k a) h2 r /\ h = h1 ++ h2) \/
  (exists e, runs p h (Err e) /\ r = Err e) \/ (runs p h Panic /\ r = Panic).
Proof.
  intros H. apply runs_pthen in H as (h1 & r1 & h2 & H1 & H2 & ->). destruct r1 as [a|e|].
  - left. now exists a, h1, h2.
  - apply runs_ret in H2 as [-> ->]. rewrite app_nil_r. right. left. now exists e.
  - apply runs_ret in H2 as [-> ->]. rewrite app_nil_r. right. right. auto.
Qed.

Lemma eof_dec (e : error) : {e = EOF} + {e <> EOF}.
Proof. destruct e; (now left) || (right; discriminate). Defined.
Lemma if_eof {A} (e : error) (a b : A) : match e with EOF => a | _ => b end = if eof_dec e then a else b.
Proof. destruct e; reflexivity. Qed.

(** ** Errors *)
Definition tells {A} (own : error -> Prop) (p : prog A) : Prop := forall h r, runs p h r -> eof_from_next h -> passed_on own h r.
Definition tells2 {S} (own : error -> Prop) (p : prog (S * option error)) : Prop :=
  forall h r, runs p h r -> eof_from_next h -> passed_on own h (flat r) /\ forall e, r <> Err e.

Lemma passed_weaken {A} (own own' : error -> Prop) h (r : res A) : (forall e, own e -> own' e) -> passed_on own h r -> passed_on own' h r.
Proof. intros Ho. destruct r as [a|e|]; cbn; auto. intros [[H1 H2]|H]; auto. Qed.
Lemma passed_prefix {A} own h1 h2 (r : res A) : Forall went_well h1 -> passed_on own h2 r -> passed_on own (h1 ++ h2) r.
Proof.
  intros H. destruct r as [a|e|]; cbn; [intros K; now apply Forall_app| |auto]. intros [[K1 K2]|(h3 & c & i & h4 & -> & K2 & K3 & K4)].
  - left. split; [now apply Forall_app|exact K2].
  - right. exists (h1 ++ h3), c, i, h4. split; [now rewrite <- app_assoc|]. split; [now apply Forall_app|]. auto.
Qed.
Lemma passed_close {A} own h (r : res A) e : is_close e -> passed_on own h r -> passed_on own (h ++ [e]) r.
Proof.
  intros H. assert (W : went_well e) by (destruct H as [rs H]; destruct e as [[c o] i]; cbn in *; now subst c).
  destruct r as [a|x|]; cbn; [intros K; apply Forall_app; auto| |auto]. intros [[K1 K2]|(h3 & c & i & h4 & -> & K2 & K3 & K4)].
  - left. split; [apply Forall_app; auto|exact K2].
  - right. exists h3, c, i, (h4 ++ [e]). split; [now rewrite <- app_assoc|]. split; [exact K2|]. split; [exact K3|]. apply Forall_app. auto.
Qed.
Lemma passed_map {A B} own h e : @passed_on A own h (Err e) -> @passed_on B own h (Err e).
Proof. exact id. Qed.

Lemma tells_weaken {A} (own own' : error -> Prop) (p : prog A) : (forall e, own e -> own' e) -> tells own p -> tells own' p.
Proof. intros Ho H h r K E. eapply passed_weaken; eauto. Qed.
Lemma tells_ret {A} own (a : A) : tells own (pret a).
Proof. intros h r H _. apply runs_ret in H as [-> ->]. constructor. Qed.
Lemma tells_fail {A} (own : error -> Prop) e : own e -> tells own (@pfail A e).
Proof. intros Ho h r H _. apply runs_ret in H as [-> ->]. left. auto. Qed.
Lemma tells_panic {A} own : tells own (@ppanic A).
Proof. intros h r H _. apply runs_ret in H as [-> ->]. exact Logic.I. Qed.
Lemma tells_res {A} own (r : res A) : (forall e, r <> Err e) -> tells own (PRet r).
Proof. intros Hr h r0 H _. apply runs_ret in H as [-> ->]. destruct r as [a|e|]; [constructor|now destruct (Hr e)|exact Logic.I]. Qed.
Lemma tells_id {A} own s q (k : Z -> prog A) : (forall id, tells own (k id)) -> tells own (PID s q k).
Proof. intros Hk h r H. apply runs_id in H as (id & H). now apply (Hk id). Qed.
Lemma tells_pID own s q : tells own (pID s q).
Proof. apply tells_id. intros id. apply tells_ret. Qed.
Lemma tells_pName own i : tells own (pName i).
Proof. intros h r H. apply runs_name in H as (s & H). now apply (tells_ret own s). Qed.
Lemma tells_bind {A B} own (p : prog A) (k : A -> prog B) : tells own p -> (forall a, tells own (k a)) -> tells own (pbind p k).
Proof.
  intros Hp Hk h r H E. apply runs_pbind in H as [(a & h1 & h2 & H1 & H2 & ->)|[(e & H1 & ->)|[H1 ->]]].
  - apply Forall_app in E as [E1 E2]. pose proof (Hp _ _ H1 E1) as K. apply passed_prefix; [exact K|]. now apply (Hk a).
  - exact (Hp _ _ H1 E).
  - exact Logic.I.
Qed.

(** A call other than [Next] and [Close]. *)
Definition usual (c : txcall) : Prop := match c with CNext _ | CClose _ => False | _ => True end.
Lemma usual_well c o i : usual c -> went_well (c, o, i) <-> o = ODone.
Proof. destruct c; cbn; tauto. Qed.
Lemma tells_call own c : usual c -> tells own (call c).
Proof.
  intros U h r H E. apply runs_call in H as (o & i & n & h1 & -> & H). destruct o; apply runs_ret in H as [-> ->]; try exact Logic.I.
  - constructor; [now apply usual_well|constructor].
  - right. exists [], c, i, []. split; [reflexivity|]. split; [constructor|]. split; [|constructor]. intros K. apply usual_well in K; [discriminate K|exact U].
Qed.

Lemma no_error_field ct v e : fieldToValue ct v <> Err e.
Proof.
  unfold fieldToValue. destruct (ct_notnull ct), v as [b|k i|k p|s|[b|]|k [v|]|], (ct_type ct); try discriminate;
    repeat match goal with |- context [match ?x with _ => _ end] => destruct x end; discriminate.
Qed.
Lemma no_error_fields cts : forall vs e, fieldsToRow cts vs <> Err e.
Proof.
  induction cts as [|ct cts IH]; intros [|v vs] e; cbn [fieldsToRow]; try discriminate. pose proof (no_error_field ct v e). destruct (fieldToValue ct v) as [x|e1|]; cbn [rbind]; [|congruence|discriminate].
  specialize (IH vs e). destruct (fieldsToRow cts vs); cbn [rbind]; [discriminate|congruence|discriminate].
Qed.
Lemma no_error_struct ti st e : structToRow ti st <> Err e.
Proof.
  unfold structToRow. destruct st as [g|]; [|discriminate]. destruct (bytes_eqb _ _); [|discriminate]. pose proof (no_error_fields (ti_types ti) (gs_fields g) e). destruct (fieldsToRow _ _); cbn [rbind]; [discriminate|congruence|discriminate].
Qed.
Lemma no_error_structs ti l e : structsToRows ti l <> Err e.
Proof.
  induction l as [|st l IH]; cbn [structsToRows]; [discriminate|]. pose proof (no_error_struct ti st e). destruct (structToRow ti st); cbn [rbind]; [|congruence|discriminate].
  destruct (structsToRows ti l); cbn [rbind]; [discriminate|congruence|discriminate].
Qed.
Lemma no_error_cols ti u e : structToColsVals ti u <> Err e.
Proof.
  induction u as [|[name v] u IH]; cbn [structToColsVals]; [discriminate|]. destruct (fieldNameToColumn _ _ _) as [cdx|]; [|discriminate]. destruct (znth _ _) as [ct|]; [|discriminate].
  pose proof (no_error_field ct v e). destruct (fieldToValue ct v); cbn [rbind]; [|congruence|discriminate]. destruct (structToColsVals ti u); cbn [rbind]; [discriminate|congruence|discriminate].
Qed.
Lemma no_error_value {F : Float32Lib} ct ft v e : valueToField ct ft v <> Err e.
Proof. unfold valueToField. repeat match goal with |- context [match ?x with _ => _ end] => destruct x end; discriminate. Qed.
Lemma no_error_row {F : Float32Lib} cts : forall flds r e, rowToFields cts flds r <> Err e.
Proof.
  induction cts as [|ct cts IH]; intros [|fd flds] [|v r] e; cbn [rowToFields]; try discriminate. pose proof (no_error_value ct (fd_type fd) v e). destruct (valueToField _ _ _); cbn [rbind]; [|congruence|discriminate].
  specialize (IH flds r e). destruct (rowToFields _ _ _); cbn [rbind]; [discriminate|congruence|discriminate].
Qed.
Lemma no_error_read {F : Float32Lib} ti r g e : RowToStruct ti r g <> Err e.
Proof. unfold RowToStruct. destruct (bytes_eqb _ _); [|discriminate]. pose proof (no_error_row (ti_types ti) (st_fields (ti_typ ti)) r e). destruct (rowToFields _ _ _); cbn [rbind]; [discriminate|congruence|discriminate]. Qed.

Lemma tells_open own ti : tells own (openTyped ti).
Proof. apply tells_bind; [apply tells_call; exact Logic.I|]. intros a. apply tells_ret. Qed.
Lemma tells_create own ti : tells own (CreateTypedTable ti).
Proof. apply tells_bind; [apply tells_call; exact Logic.I|]. intros a. apply tells_ret. Qed.
Lemma tells_insert own ti l : tells own (TypedTableInsert ti l).
Proof.
  apply tells_bind; [apply tells_open|]. intros tbl. apply tells_bind; [apply tells_res; apply no_error_structs|]. intros rows. apply tells_bind; [apply tells_call; exact Logic.I|]. intros a. apply tells_ret.
Qed.

(** The end of the file is not the error of a call that did not go well. *)
Lemma no_eof {A} own h : eof_from_next h -> @passed_on A own h (Err EOF) -> Forall went_well h /\ own EOF.
Proof.
  intros E [K|(h6 & c & j & h7 & -> & K2 & K3 & K4)]; [exact K|]. exfalso. apply K3. apply Forall_app in E as [_ E]. apply Forall_inv in E.
  destruct (E eq_refl) as [[x Ex]|[x Ex]]; cbn in Ex; subst c; cbn; auto.
Qed.

(** The loop: the error of a row's function is passed on, unless it is the end of
    the file. *)
Definition but_eof (own : error -> Prop) (e : error) : Prop := e <> EOF /\ own e.
Lemma passed_but {A} own h e : e <> EOF -> @passed_on A own h (Err e) -> @passed_on A (but_eof own) h (Err e).
Proof. intros Ne [[K1 K2]|K]; [left; repeat split; auto|right; exact K]. Qed.

Lemma tells_loop {S} own rs (fn : S -> nat -> row -> prog (S * option error)) : (forall s row, tells2 own (fn s rs row)) ->
  forall fuel s, tells2 (but_eof own) (selectLoop fuel rs fn s).
Proof.
  intros Hf. induction fuel as [|fuel IH]; intros s h r H E; cbn [selectLoop] in H; [apply runs_ret in H as [-> ->]; split; [exact Logic.I|discriminate]|].
  apply runs_pthen in H as (h1 & r1 & h2 & H1 & H2 & ->). apply runs_call in H1 as (o & i & n & h3 & -> & H1).
  assert (R : forall x, runs (PRet x) h3 r1 -> h3 = [] /\ r1 = x) by (intros x; apply runs_ret).
  destruct o; apply R in H1 as [-> ->]; try (apply runs_ret in H2 as [-> ->]; split; [exact Logic.I|discriminate]); clear R.
  - apply Forall_app in E as [E1 E2].
    enough (Q : passed_on (but_eof own) h2 (flat r) /\ forall e, r <> Err e) by (split; [apply passed_prefix; [constructor; [left; now exists r0|constructor]|apply Q]|apply Q]).
    apply runs_pbind in H2 as [(q & h4 & h5 & J1 & J2 & ->)|[(e & J1 & ->)|[J1 ->]]].
    + apply Forall_app in E2 as [E2 E3]. destruct (Hf s r0 _ _ J1 E2) as [K _]. destruct q as [s1 [e|]]; cbn [flat fst snd] in K, J2.
      * rewrite if_eof in J2. destruct (eof_dec e) as [->|Ne]; apply runs_ret in J2 as [-> ->]; rewrite app_nil_r; (split; [|discriminate]).
        -- apply no_eof in K as [K _]; [exact K|exact E2].
        -- cbn [flat]. apply passed_but; assumption.
      * destruct (IH s1 _ _ J2 E3) as [K1 K2]. split; [apply passed_prefix; assumption|exact K2].
    + destruct (Hf s r0 _ _ J1 E2) as [_ K]. now destruct (K e).
    + split; [exact Logic.I|discriminate].
  - rewrite if_eof in H2. destruct (eof_dec e) as [->|Ne]; apply runs_ret in H2 as [-> ->]; (split; [|discriminate]).
    + constructor; [now right|constructor].
    + right. exists [], (CNext rs), i, []. split; [reflexivity|]. split; [constructor|]. split; [|constructor]. intros [[x K]|K]; [discriminate K|injection K as K; now apply Ne].
Qed.

Lemma tells_rows own ti mn mx : tells own (do! tbl := openTyped ti in do! mn := PRet (structToRow ti mn) in do! mx := PRet (structToRow ti mx) in call (CRows tbl None mn mx None)).
Proof. apply tells_bind; [apply tells_open|]. intros tbl. apply tells_bind; [apply tells_res; apply no_error_struct|]. intros a. apply tells_bind; [apply tells_res; apply no_error_struct|]. intros b. apply tells_call. exact Logic.I. Qed.

Lemma tells_select {S} own ti mn mx (fn : S -> nat -> row -> prog (S * option error)) s : (forall rs s row, tells2 own (fn s rs row)) -> tells2 (but_eof own) (typedTableSelect ti mn mx fn s).
Proof.
  intros Hf h r H E. apply runs_pthen in H as (h1 & r1 & h2 & H1 & H2 & ->). apply Forall_app in E as [E1 E2].
  pose proof (tells_rows (but_eof own) ti mn mx _ _ H1 E1) as K. destruct r1 as [[rs n]|e|].
  - apply runs_pthen in H2 as (h3 & r3 & h4 & J1 & J2 & ->). apply Forall_app in E2 as [E2 E3].
    destruct (tells_loop own rs fn (Hf rs) _ _ _ _ J1 E2) as [K3 K4]. apply runs_pthen in J2 as (h5 & r5 & h6 & J2 & J3 & ->). apply runs_call in J2 as (o & i & m & h7 & -> & J2).
    assert (R : h7 = []) by (destruct o; now apply runs_ret in J2). rewrite R in *.
    assert (Q : h6 = [] /\ (r = r3 \/ r = Panic)) by (destruct r5; apply runs_ret in J3 as [-> ->]; auto). destruct Q as [-> [->| ->]]; [|split; [exact Logic.I|discriminate]].
    split; [|exact K4]. apply passed_prefix; [exact K|]. apply passed_close; [now exists rs|exact K3].
  - apply runs_ret in H2 as [-> ->]. rewrite app_nil_r. split; [exact K|discriminate].
  - apply runs_ret in H2 as [-> ->]. split; [exact Logic.I|discriminate].
Qed.

Lemma tells2_weaken {S} (own own' : error -> Prop) (p : prog (S * option error)) : (forall e, own e -> own' e) -> tells2 own p -> tells2 own' p.
Proof. intros Ho H h r K E. destruct (H h r K E). split; [eapply passed_weaken; eauto|assumption]. Qed.
Lemma tells2_ret {S} own (s : S) : tells2 own (pret (s, None)).
Proof. intros h r H _. apply runs_ret in H as [-> ->]. split; [constructor|discriminate]. Qed.
Lemma tells2_err {S} (own : error -> Prop) (s : S) e : own e -> tells2 own (pret (s, Some e)).
Proof. intros Ho h r H _. apply runs_ret in H as [-> ->]. split; [left; auto|discriminate]. Qed.
Lemma tells2_panic {S} (own : error -> Prop) : tells2 own (@ppanic (S * option error)).
Proof. intros h r H _. apply runs_ret in H as [-> ->]. split; [exact Logic.I|discriminate]. Qed.
Lemma tells2_bind {A S} own (p : prog A) (k : A -> prog (S * option error)) : tells own p -> (forall h r e, runs p h r -> r <> Err e) -> (forall a, tells2 own (k a)) -> tells2 own (pbind p k).
Proof.
  intros Hp Hn Hk h r H E. apply runs_pbind in H as [(a & h1 & h2 & H1 & H2 & ->)|[(e & H1 & ->)|[H1 ->]]].
  - apply Forall_app in E as [E1 E2]. pose proof (Hp _ _ H1 E1) as K. destruct (Hk a _ _ H2 E2). split; [apply passed_prefix; assumption|assumption].
  - now destruct (Hn _ _ e H1).
  - split; [exact Logic.I|discriminate].
Qed.
Lemma tells2_res {A S} own (p : res A) (k : A -> prog (S * option error)) : (forall e, p <> Err e) -> (forall a, tells2 own (k a)) -> tells2 own (pbind (PRet p) k).
Proof. intros Hp. apply tells2_bind; [now apply tells_res|]. intros h r e H. apply runs_ret in H as [_ ->]. apply Hp. Qed.
Lemma tells2_pID {S} own s q (k : Z -> prog (S * option error)) : (forall id, tells2 own (k id)) -> tells2 own (pbind (pID s q) k).
Proof. apply tells2_bind; [apply tells_pID|]. intros h r e H. apply runs_id in H as [id H]. apply runs_ret in H as [_ ->]. discriminate. Qed.
Lemma tells2_pName {S} own i (k : bytes -> prog (S * option error)) : (forall s, tells2 own (k s)) -> tells2 own (pbind (pName i) k).
Proof. apply tells2_bind; [apply tells_pName|]. intros h r e H. apply runs_name in H as [s H]. apply runs_ret in H as [_ ->]. discriminate. Qed.
Lemma tells_orFail {S} own (p : prog (S * option error)) : tells2 own p -> tells own (do! q := p in orFail q).
Proof.
  intros Hp h r H E. apply runs_pbind in H as [(q & h1 & h2 & H1 & H2 & ->)|[(e & H1 & ->)|[H1 ->]]]; [|exact (proj1 (Hp _ _ H1 E))|exact Logic.I].
  apply Forall_app in E as [E1 E2]. destruct (Hp _ _ H1 E1) as [K _]. destruct q as [s [e|]]; cbn in H2, K; apply runs_ret in H2 as [-> ->]; rewrite app_nil_r; exact K.
Qed.
Lemma tells_then {S B} own (p : prog (S * option error)) (k : S -> prog B) : tells2 own p -> (forall s, tells own (k s)) -> tells own (do! q := p in do! s := orFail q in k s).
Proof.
  intros Hp Hk h r H E. apply runs_pbind in H as [(q & h1 & h2 & H1 & H2 & ->)|[(e & H1 & ->)|[H1 ->]]]; [|exact (proj1 (Hp _ _ H1 E))|exact Logic.I].
  apply Forall_app in E as [E1 E2]. destruct (Hp _ _ H1 E1) as [K _]. destruct q as [s [e|]]; cbn in K, H2.
  - apply runs_ret in H2 as [-> ->]. rewrite app_nil_r. exact K.
  - apply passed_prefix; [exact K|]. now apply (Hk s).
Qed.
(** [found]: the end of the file is told by another error. *)
Lemma tells_found {B} (own own' : error -> Prop) nf (p : prog (gostruct * option error)) (k : gostruct -> prog B) :
  (forall e, own e -> e = EOF \/ own' e) -> own' nf -> tells2 own p -> (forall g, tells own' (k g)) -> tells own' (do! q := p in do! g := found nf q in k g).
Proof.
  intros Ho Hn Hp Hk h r H E.
  apply runs_pbind in H as [(q & h1 & h2 & H1 & H2 & ->)|[(e & H1 & ->)|[H1 ->]]]; [|now destruct (proj2 (Hp _ _ H1 E) e)|exact Logic.I].
  apply Forall_app in E as [E1 E2]. destruct (Hp _ _ H1 E1) as [K _]. destruct q as [g [e|]]; cbn in K.
  - unfold found in H2. cbn [snd fst] in H2. rewrite if_eof in H2. destruct (eof_dec e) as [->|Ne]; cbn in H2; apply runs_ret in H2 as [-> ->]; rewrite app_nil_r.
    + left. split; [|exact Hn]. now apply (@no_eof gostruct own).
    + destruct K as [[K1 K2]|K]; [left|right; exact K]. split; [exact K1|]. now destruct (Ho e K2).
  - cbn in H2. apply passed_prefix; [exact K|]. now apply (Hk g).
Qed.

Lemma tells_changed {S} own (p : prog (nat * nat)) (s : S) : tells own p -> tells2 own (pthen p (fun r => match r with Ok _ => pret (s, None) | Err e => pret (s, Some e) | Panic => ppanic end)).
Proof.
  intros Hp h r H E. apply runs_pthen in H as (h1 & r1 & h2 & H1 & H2 & ->). apply Forall_app in E as [E1 E2]. pose proof (Hp _ _ H1 E1) as K.
  destruct r1 as [a|e|]; apply runs_ret in H2 as [-> ->]; rewrite app_nil_r; (split; [|discriminate]); exact K.
Qed.
Lemma tells_quiet {S T} (own : error -> Prop) (fn : S -> row -> prog (S * (T + error))) (k : S -> T -> prog (S * option error)) s row :
  calls_nothing fn -> (forall s row s' e, runs (fn s row) [] (Ok (s', inr e)) -> own e) -> (forall s t, tells2 own (k s t)) ->
  tells2 own (do! q := fn s row in match snd q with inr e => pret (fst q, Some e) | inl t => k (fst q) t end).
Proof.
  intros Hq Ho Hk h r H E. apply runs_pbind in H as [([s1 q] & h1 & h2 & H1 & H2 & ->)|[(e & H1 & ->)|[H1 ->]]].
  - destruct (Hq _ _ _ _ H1) as [-> _]. cbn [app] in *. destruct q as [t|e]; cbn [fst snd] in H2; [now apply (Hk s1 t)|]. apply runs_ret in H2 as [-> ->]. split; [left; split; [constructor|eauto]|discriminate].
  - destruct (Hq _ _ _ _ H1) as [-> K]. now destruct (K e).
  - split; [exact Logic.I|discriminate].
Qed.

Lemma tells_lookup {F : Float32Lib} ti st : tells2 (fun e => e = EOF) (TypedTableLookup ti st).
Proof.
  intros h r H E. apply runs_pbind in H as [(q & h1 & h2 & H1 & H2 & ->)|Z].
  - apply Forall_app in E as [E1 E2].
    assert (T : tells2 (but_eof (fun _ => False)) (typedTableSelect ti (Some st) (Some st) (fun (s : bool * gostruct) _ row => if fst s then ppanic else do! g := PRet (RowToStruct ti row (snd s)) in pret ((true, g), None)) (false, st))).
    { apply tells_select. intros rs [[|] g] row; [apply tells2_panic|]. apply tells2_res; [apply no_error_read|]. intros a. apply tells2_ret. }
    destruct (T _ _ H1 E1) as [K _]. destruct q as [[fnd g] [e|]]; cbn in H2, K.
    + apply runs_ret in H2 as [-> ->]. rewrite app_nil_r. split; [|discriminate]. cbn. destruct K as [[_ [_ []]]|K]. now right.
    + destruct fnd; apply runs_ret in H2 as [-> ->]; rewrite app_nil_r; (split; [|discriminate]); cbn; auto.
  - assert (T : tells2 (but_eof (fun _ => False)) (typedTableSelect ti (Some st) (Some st) (fun (s : bool * gostruct) _ row => if fst s then ppanic else do! g := PRet (RowToStruct ti row (snd s)) in pret ((true, g), None)) (false, st))).
    { apply tells_select. intros rs [[|] g] row; [apply tells2_panic|]. apply tells2_res; [apply no_error_read|]. intros a. apply tells2_ret. }
    destruct Z as [(e & H1 & ->)|[H1 ->]]; [|split; [exact Logic.I|discriminate]]. now destruct (proj2 (T _ _ H1 E) e).
Qed.

Theorem any_select {S} ti mn mx (fn : S -> row -> prog (S * option error)) s : calls_nothing fn -> tells2 (gives fn) (TypedTableSelect ti mn mx fn s).
Proof.
  intros Hq. apply tells2_weaken with (but_eof (fun e => exists s row s', runs (fn s row) [] (Ok (s', Some e)))); [intros e He; exact He|].
  apply tells_select. intros rs s0 row h r H E. destruct (Hq _ _ _ _ H) as [-> K]. split; [|exact K]. destruct r as [[s1 [e|]]|e|]; cbn; [left; split; [constructor|eauto]|constructor|now destruct (K e)|exact Logic.I].
Qed.
Theorem any_update {S} ti mn mx (fn : S -> row -> prog (S * (option upstruct + error))) s : calls_nothing fn -> tells2 (gives_sum fn) (TypedTableUpdate ti mn mx fn s).
Proof.
  intros Hq. apply tells2_weaken with (but_eof (fun e => exists s row s', runs (fn s row) [] (Ok (s', inr e)))); [intros e He; exact He|].
  apply tells_select. intros rs s0 row.
  assert (T := tells_quiet (fun e => exists s row s', runs (fn s row) [] (Ok (s', inr e))) fn
    (fun s1 u => match u with None => pret (s1, None) | Some u =>
          pthen (do! rr := call (CCurrent rs) in do! cv := PRet (structToColsVals ti u) in call (CUpdate (fst rr) (fst cv) (snd cv)))
            (fun r => match r with Ok _ => pret (s1, None) | Err e => pret (s1, Some e) | Panic => ppanic end) end) s0 row Hq).
  apply T; [intros s2 row2 s' e H; exists s2, row2, s'; exact H|].
  intros s1 [u|]; [|apply tells2_ret]. apply tells_changed. apply tells_bind; [apply tells_call; exact Logic.I|]. intros rr. apply tells_bind; [apply tells_res; apply no_error_cols|]. intros cv. apply tells_call. exact Logic.I.
Qed.
Theorem any_delete {S} ti mn mx (fn : S -> row -> prog (S * (bool + error))) s : calls_nothing fn -> tells2 (gives_sum fn) (TypedTableDelete ti mn mx fn s).
Proof.
  intros Hq. apply tells2_weaken with (but_eof (fun e => exists s row s', runs (fn s row) [] (Ok (s', inr e)))); [intros e He; exact He|].
  apply tells_select. intros rs s0 row.
  assert (T := tells_quiet (fun e => exists s row s', runs (fn s row) [] (Ok (s', inr e))) fn
    (fun s1 u => if u : bool then
          pthen (do! rr := call (CCurrent rs) in call (CDelete (fst rr)))
            (fun r => match r with Ok _ => pret (s1, None) | Err e => pret (s1, Some e) | Panic => ppanic end) else pret (s1, None)) s0 row Hq).
  apply T; [intros s2 row2 s' e H; exists s2, row2, s'; exact H|]. intros s1 [|]; [|apply tells2_ret]. apply tells_changed. apply tells_bind; [apply tells_call; exact Logic.I|]. intros rr. apply tells_call. exact Logic.I.
Qed.

(** ** The functions of package engine *)
Section Functions.
  Context {F : Float32Lib} {E : EGobLib}.

  Lemma tells_encodeIds own l : tells own (pEncodeIds l).
  Proof. induction l as [|id l IH]; cbn [pEncodeIds]; [apply tells_ret|]. apply tells_bind; [apply tells_pName|]. intros s. apply tells_bind; [exact IH|]. intros x. apply tells_ret. Qed.
  Lemma tells_encode own tt : tells own (Encode tt).
  Proof. apply tells_bind; [apply tells_encodeIds|]. intros ids. apply tells_ret. Qed.
  Lemma tells_decodeIds (own : error -> Prop) l : own ErrGob -> tells own (pDecodeIds l).
  Proof.
    intros Ho. induction l as [|[|b s] l IH]; cbn [pDecodeIds]; [apply tells_ret|now apply tells_fail|]. destruct (1 <? bz b); [now apply tells_fail|].
    apply tells_bind; [apply tells_pID|]. intros id. apply tells_bind; [exact IH|]. intros x. apply tells_ret.
  Qed.
  Lemma tells_decode (own : error -> Prop) buf : own ErrGob -> tells own (DecodeTableType buf).
  Proof. intros Ho. unfold DecodeTableType. destruct (x_egob_decode buf); [|now apply tells_fail]. apply tells_bind; [now apply tells_decodeIds|]. intros ids. apply tells_ret. Qed.
  Lemma tells_initTable own ti l : tells own (initTable ti l).
  Proof. apply tells_bind; [apply tells_create|]. intros _. destruct l; [apply tells_ret|apply tells_insert]. Qed.
  Lemma tells_initRow own ti : tells own (initRow ti).
  Proof. apply tells_bind; [apply tells_encode|]. intros b. repeat (apply tells_bind; [apply tells_pName|intros ?]). apply tells_ret. Qed.

  Lemma quiet_true : calls_nothing (fun (_ : bool) (_ : row) => pret (true, inl true : bool + error)).
  Proof. intros s row h r H. apply runs_ret in H as [-> ->]. split; [reflexivity|discriminate]. Qed.
  Lemma tells_drop ti g (own : error -> Prop) (ifExists : bool) nf : (ifExists = false -> own nf) ->
    tells own (do! q := TypedTableDelete ti (Some g) (Some g) (fun (_ : bool) _ => pret (true, inl true)) false in
    do! deleted := orFail q in if deleted then pret tt else if ifExists then pret tt else pfail nf).
  Proof.
    intros Ho. apply tells_then.
    - eapply tells2_weaken; [|apply any_delete; apply quiet_true]. intros e (_ & s & row & s' & H). apply runs_ret in H as [_ H]. discriminate H.
    - intros [|]; [apply tells_ret|]. destruct ifExists; [apply tells_ret|]. apply tells_fail. now apply Ho.
  Qed.

  Lemma tells_nextTableId own I : tells own (nextTableId I).
  Proof.
    apply tells_orFail. eapply tells2_weaken; [|apply any_update].
    - intros e (_ & s & row & s' & H). apply runs_pbind in H as [(a & h1 & h2 & H1 & H2 & _)|[(x & H1 & Z)|[H1 Z]]]; try discriminate Z.
      apply runs_ret in H2 as [_ H2]. discriminate H2.
    - intros s row h r H. apply runs_pbind in H as [(a & h1 & h2 & H1 & H2 & ->)|[(x & H1 & ->)|[H1 ->]]]; apply runs_ret in H1 as [-> H1].
      + apply runs_ret in H2 as [-> ->]. split; [reflexivity|discriminate].
      + symmetry in H1. now apply no_error_read in H1.
      + split; [reflexivity|discriminate].
  Qed.

  Theorem any_tells I A p own : engine_function I A p own -> tells own p.
  Proof.
    intros H. destruct H as [dn|dn ifx| |dn sn|dn sn ifx|dn|tn|tn cn ct p|].
    - apply tells_bind; [apply tells_pName|]. intros d. apply tells_insert.
    - apply tells_bind; [apply tells_pName|]. intros d. apply tells_drop. auto.
    - apply tells_orFail. eapply tells2_weaken; [|apply tells_select with (own := fun _ => False)]; [intros e [_ []]|]. intros rs l row. apply tells2_res; [apply no_error_read|]. intros g. apply tells2_pID. intros id. apply tells2_ret.
    - apply tells_bind; [apply tells_pName|]. intros d. apply tells_found with (own := fun e => e = EOF); [auto|reflexivity|apply tells_lookup|]. intros _. repeat (apply tells_bind; [apply tells_pName|intros ?]). apply tells_insert.
    - repeat (apply tells_bind; [apply tells_pName|intros ?]). apply tells_drop. auto.
    - apply tells_bind; [apply tells_pName|]. intros d. apply tells_found with (own := fun e => e = EOF); [auto|reflexivity|apply tells_lookup|]. intros _. apply tells_bind; [apply tells_pName|]. intros d1.
      apply tells_orFail. eapply tells2_weaken; [|apply tells_select with (own := fun e => e = EOF)]; [intros e [K1 K2]; now destruct K1|]. intros rs l row. apply tells2_res; [apply no_error_read|]. intros g. apply tells2_pName. intros d2.
      destruct (bytes_eqb _ _); [|now apply tells2_err]. apply tells2_pID. intros id. apply tells2_ret.
    - repeat (apply tells_bind; [apply tells_pName|intros ?]). apply tells_found with (own := fun e => e = EOF); [auto|now left|apply tells_lookup|]. intros g. apply tells_bind; [apply tells_decode; now right|]. intros tt. apply tells_ret.
    - repeat (apply tells_bind; [apply tells_pName|intros ?]). apply tells_found with (own := fun e => e = EOF); [auto|reflexivity|apply tells_lookup|]. intros _. apply tells_bind; [apply tells_encode|]. intros buf. apply tells_bind; [apply tells_nextTableId|]. intros tid.
      repeat (apply tells_bind; [apply tells_pName|intros ?]). apply tells_insert.
    - repeat (apply tells_bind; [apply tells_initTable|intros _]). repeat (apply tells_bind; [apply tells_initRow|intros ?]). apply tells_insert.
  Qed.
End Functions.

(** ** Row sets *)
Definition brackets {A} (p : prog A) : Prop := forall h r, runs p h r -> bracketed h.
Lemma bracketed_app h1 h2 : bracketed h1 -> bracketed h2 -> bracketed (h1 ++ h2).
Proof.
  intros H K. induction H as [|tid tn cols types primary o i h H IH|tid tn cols types primary o i h H IH|tbl rs o i h H IH|tbl cols mn mx p o i h N H IH|tbl cols mn mx p i h1 o j h2' V H IH]; cbn [app].
  - exact K.
  - now apply bracketed_open.
  - now apply bracketed_create.
  - now apply bracketed_insert.
  - now apply bracketed_no_rows.
  - rewrite <- app_assoc. cbn [app]. now apply bracketed_rows.
Qed.
Lemma visits_app i h1 h2 : visits i h1 -> visits i h2 -> visits i (h1 ++ h2).
Proof. intros H K. induction H; cbn [app]; [exact K|now apply visits_next|now apply visits_current|now apply visits_update|now apply visits_delete]. Qed.
Lemma brackets_ret {A} (r : res A) : brackets (PRet r).
Proof. intros h r0 H. apply runs_ret in H as [-> _]. constructor. Qed.
Lemma brackets_then {A B} (p : prog A) (k : res A -> prog B) : brackets p -> (forall r, brackets (k r)) -> brackets (pthen p k).
Proof. intros Hp Hk h r H. apply runs_pthen in H as (h1 & r1 & h2 & H1 & H2 & ->). apply bracketed_app; [now apply (Hp _ r1)|now apply (Hk r1 _ r)]. Qed.
Lemma brackets_bind {A B} (p : prog A) (k : A -> prog B) : brackets p -> (forall a, brackets (k a)) -> brackets (pbind p k).
Proof. intros Hp Hk. apply brackets_then; [exact Hp|]. intros [a|e|]; [apply Hk|apply brackets_ret|apply brackets_ret]. Qed.
Lemma brackets_pID s q : brackets (pID s q).
Proof. intros h r H. apply runs_id in H as [id H]. now apply (brackets_ret _ _ _ H). Qed.
Lemma brackets_pName i : brackets (pName i).
Proof. intros h r H. apply runs_name in H as [s H]. now apply (brackets_ret _ _ _ H). Qed.
Lemma call_runs c h r : runs (call c) h r -> exists o i n, h = [(c, o, i)] /\ r = match o with ODone => Ok (i, n) | OErr e => Err e | _ => Panic end.
Proof. intros H. apply runs_call in H as (o & i & n & h1 & -> & H). exists o, i, n. destruct o; apply runs_ret in H as [-> ->]; auto. Qed.
Lemma brackets_open ti : brackets (openTyped ti).
Proof. apply brackets_bind; [|intros a; apply brackets_ret]. intros h r H. apply call_runs in H as (o & i & n & -> & _). repeat constructor. Qed.
Lemma brackets_insert ti l : brackets (TypedTableInsert ti l).
Proof.
  apply brackets_bind; [apply brackets_open|]. intros tbl. apply brackets_bind; [apply brackets_ret|]. intros rows. apply brackets_bind; [|intros a; apply brackets_ret]. intros h r H. apply call_runs in H as (o & i & n & -> & _). repeat constructor.
Qed.
Definition visiting {A} (i : nat) (p : prog A) : Prop := forall h r, runs p h r -> visits i h.
Lemma visits_loop {S} rs (fn : S -> nat -> row -> prog (S * option error)) : (forall s row, visiting rs (fn s rs row)) -> forall fuel s, visiting rs (selectLoop fuel rs fn s).
Proof.
  intros Hf. induction fuel as [|fuel IH]; intros s h r H; cbn [selectLoop] in H; [apply runs_ret in H as [-> _]; constructor|].
  apply runs_pthen in H as (h1 & r1 & h2 & H1 & H2 & ->). apply runs_call in H1 as (o & i & n & h3 & -> & H1).
  assert (R : h3 = []) by (destruct o; now apply runs_ret in H1). rewrite R. cbn [app]. constructor. destruct r1 as [row|e|].
  - apply runs_pbind in H2 as [(q & h4 & h5 & J1 & J2 & ->)|[(e & J1 & _)|[J1 _]]]; [|exact (Hf _ _ _ _ J1)|exact (Hf _ _ _ _ J1)]. apply visits_app; [exact (Hf _ _ _ _ J1)|]. destruct q as [s1 [e|]]; cbn [fst snd] in J2; [|exact (IH _ _ _ J2)].
    rewrite if_eof in J2. destruct (eof_dec e); apply runs_ret in J2 as [-> _]; constructor.
  - rewrite if_eof in H2. destruct (eof_dec e); apply runs_ret in H2 as [-> _]; constructor.
  - apply runs_ret in H2 as [-> _]; constructor.
Qed.
Lemma rows_runs ti mn mx h r : runs (do! tbl := openTyped ti in do! mn := PRet (structToRow ti mn) in do! mx := PRet (structToRow ti mx) in call (CRows tbl None mn mx None)) h r ->
  match r with Ok (i, _) => exists h1 tbl cols mn mx p, h = h1 ++ [(CRows tbl cols mn mx p, ODone, i)] /\ bracketed h1 | _ => bracketed h end.
Proof.
  intros H. apply runs_pbind in H as [(tbl & h1 & h2 & H1 & H2 & ->)|[(e & H1 & ->)|[H1 ->]]]; [|exact (brackets_open _ _ _ H1)|exact (brackets_open _ _ _ H1)].
  apply brackets_open in H1. apply runs_pbind in H2 as [(a & h3 & h4 & H2 & H3 & ->)|[(e & H2 & ->)|[H2 ->]]]; apply runs_ret in H2 as [-> _]; [|rewrite app_nil_r; exact H1|rewrite app_nil_r; exact H1].
  apply runs_pbind in H3 as [(b & h5 & h6 & H2 & H3 & ->)|[(e & H2 & ->)|[H2 ->]]]; apply runs_ret in H2 as [-> _]; [|rewrite app_nil_r; exact H1|rewrite app_nil_r; exact H1].
  apply call_runs in H3 as (o & i & n & -> & ->). cbn [app]. destruct o; try (apply bracketed_app; [exact H1|constructor; [discriminate|constructor]]). exists h1, tbl, None, a, b, None. auto.
Qed.
Lemma brackets_select {S} ti mn mx (fn : S -> nat -> row -> prog (S * option error)) s : (forall rs s row, visiting rs (fn s rs row)) -> brackets (typedTableSelect ti mn mx fn s).
Proof.
  intros Hf h r H. apply runs_pthen in H as (h1 & r1 & h2 & H1 & H2 & ->). apply rows_runs in H1. destruct r1 as [[rs n]|e|].
  - destruct H1 as (h3 & tbl & cols & mn1 & mx1 & p & -> & B). apply runs_pthen in H2 as (h4 & r3 & h5 & J1 & J2 & ->). apply (visits_loop rs fn (Hf rs)) in J1.
    apply runs_pthen in J2 as (h6 & r5 & h7 & J2 & J3 & ->). apply call_runs in J2 as (o & i & m & -> & _).
    assert (R : h7 = []) by (destruct r5; now apply runs_ret in J3). rewrite R. rewrite <- app_assoc. apply bracketed_app; [exact B|]. cbn [app]. constructor; [exact J1|constructor].
  - apply runs_ret in H2 as [-> _]. now rewrite app_nil_r.
  - apply runs_ret in H2 as [-> _]. now rewrite app_nil_r.
Qed.
Lemma visiting_silent {A} i (p : prog A) : (forall h r, runs p h r -> h = []) -> visiting i p.
Proof. intros Hp h r H. rewrite (Hp h r H). constructor. Qed.
Definition silent {A} (p : prog A) : Prop := forall h r, runs p h r -> h = [].
Lemma silent_ret {A} (r : res A) : silent (PRet r).
Proof. intros h r0 H. now apply runs_ret in H. Qed.
Lemma silent_bind {A B} (p : prog A) (k : A -> prog B) : silent p -> (forall a, silent (k a)) -> silent (pbind p k).
Proof. intros Hp Hk h r H. apply runs_pbind in H as [(a & h1 & h2 & H1 & H2 & ->)|[(e & H1 & _)|[H1 _]]]; [|now apply Hp in H1|now apply Hp in H1]. apply Hp in H1 as ->. now apply Hk in H2 as ->. Qed.
Lemma silent_pID s q : silent (pID s q).
Proof. intros h r H. apply runs_id in H as [id H]. now apply silent_ret in H. Qed.
Lemma silent_pName i : silent (pName i).
Proof. intros h r H. apply runs_name in H as [s H]. now apply silent_ret in H. Qed.
Lemma brackets_silent {A} (p : prog A) : silent p -> brackets p.
Proof. intros Hp h r H. rewrite (Hp _ _ H). constructor. Qed.

Lemma brackets_lookup {F : Float32Lib} ti st : brackets (TypedTableLookup ti st).
Proof.
  apply brackets_bind.
  - apply brackets_select. intros rs [[|] g] row; apply visiting_silent; [apply silent_ret|]. apply silent_bind; [apply silent_ret|]. intros a. apply silent_ret.
  - intros [[fnd g] [e|]]; [apply brackets_ret|]. destruct fnd; apply brackets_ret.
Qed.
Theorem bracketed_select {S} ti mn mx (fn : S -> row -> prog (S * option error)) s : calls_nothing fn -> brackets (TypedTableSelect ti mn mx fn s).
Proof. intros Hq. apply brackets_select. intros rs s0 row. apply visiting_silent. intros h r H. now apply Hq in H. Qed.
Lemma visits_changed {S} i (p : prog (nat * nat)) (s : S) : visiting i p -> visiting i (pthen p (fun r => match r with Ok _ => pret (s, None) | Err e => pret (s, Some e) | Panic => ppanic end)).
Proof.
  intros Hp h r H. apply runs_pthen in H as (h1 & r1 & h2 & H1 & H2 & ->). apply Hp in H1.
  assert (R : h2 = []) by (destruct r1; now apply runs_ret in H2). rewrite R, app_nil_r. exact H1.
Qed.
Lemma visits_quiet {S T} i (fn : S -> row -> prog (S * (T + error))) (k : S -> T -> prog (S * option error)) s row :
  calls_nothing fn -> (forall s t, visiting i (k s t)) ->
  visiting i (do! q := fn s row in match snd q with inr e => pret (fst q, Some e) | inl t => k (fst q) t end).
Proof.
  intros Hq Hk h r H. apply runs_pbind in H as [([s1 q] & h1 & h2 & H1 & H2 & ->)|[(e & H1 & ->)|[H1 ->]]].
  - destruct (Hq _ _ _ _ H1) as [-> _]. cbn [app] in *. destruct q as [t|e]; cbn [fst snd] in H2; [now apply (Hk s1 t) in H2|]. apply runs_ret in H2 as [-> ->]. constructor.
  - destruct (Hq _ _ _ _ H1) as [-> K]. constructor.
  - destruct (Hq _ _ _ _ H1) as [-> K]. constructor.
Qed.
Theorem bracketed_update {S} ti mn mx (fn : S -> row -> prog (S * (option upstruct + error))) s : calls_nothing fn -> brackets (TypedTableUpdate ti mn mx fn s).
Proof.
  intros Hq. apply brackets_select. intros rs s0 row.
  assert (T := visits_quiet rs fn
    (fun s1 u => match u with None => pret (s1, None) | Some u =>
          pthen (do! rr := call (CCurrent rs) in do! cv := PRet (structToColsVals ti u) in call (CUpdate (fst rr) (fst cv) (snd cv)))
            (fun r => match r with Ok _ => pret (s1, None) | Err e => pret (s1, Some e) | Panic => ppanic end) end) s0 row Hq).
  apply T. intros s1 [u|]; [|apply visiting_silent; apply silent_ret]. apply visits_changed. intros h r H.
  apply runs_pbind in H as [(rr & h1 & h2 & H1 & H2 & ->)|[(e & H1 & ->)|[H1 ->]]]; apply call_runs in H1 as (o & i & n & -> & Er); [|repeat constructor|repeat constructor].
  destruct o; try discriminate Er. injection Er as ->.
  apply runs_pbind in H2 as [(cv & h3 & h4 & H2 & H3 & ->)|[(e & H2 & ->)|[H2 ->]]]; apply runs_ret in H2 as [-> _]; cbn [app]; [|repeat constructor|repeat constructor].
  apply call_runs in H3 as (o & j & m & -> & _). cbn [app fst]. apply visits_update. constructor.
Qed.
Theorem bracketed_delete {S} ti mn mx (fn : S -> row -> prog (S * (bool + error))) s : calls_nothing fn -> brackets (TypedTableDelete ti mn mx fn s).
Proof.
  intros Hq. apply brackets_select. intros rs s0 row.
  assert (T := visits_quiet rs fn
    (fun s1 u => if u : bool then
          pthen (do! rr := call (CCurrent rs) in call (CDelete (fst rr)))
            (fun r => match r with Ok _ => pret (s1, None) | Err e => pret (s1, Some e) | Panic => ppanic end) else pret (s1, None)) s0 row Hq).
  apply T. intros s1 [|]; [|apply visiting_silent; apply silent_ret]. apply visits_changed. intros h r H.
  apply runs_pbind in H as [(rr & h1 & h2 & H1 & H2 & ->)|[(e & H1 & ->)|[H1 ->]]]; apply call_runs in H1 as (o & i & n & -> & Er); [|repeat constructor|repeat constructor].
  destruct o; try discriminate Er. injection Er as ->. apply call_runs in H2 as (o & j & m & -> & _). cbn [app fst]. apply visits_delete. constructor.
Qed.

Section Brackets.
  Context {F : Float32Lib} {E : EGobLib}.

  Lemma silent_encode tt : silent (Encode tt).
  Proof.
    apply silent_bind; [|intros ids; apply silent_ret]. induction (ett_cols tt) as [|id l IH]; cbn [pEncodeIds]; [apply silent_ret|]. apply silent_bind; [apply silent_pName|]. intros s. apply silent_bind; [exact IH|]. intros x. apply silent_ret.
  Qed.
  Lemma silent_decode buf : silent (DecodeTableType buf).
  Proof.
    unfold DecodeTableType. destruct (x_egob_decode buf) as [wt|]; [|apply silent_ret]. apply silent_bind; [|intros ids; apply silent_ret].
    induction (ewt_cols wt) as [|[|b s] l IH]; cbn [pDecodeIds]; [apply silent_ret|apply silent_ret|]. destruct (1 <? bz b); [apply silent_ret|].
    apply silent_bind; [apply silent_pID|]. intros id. apply silent_bind; [exact IH|]. intros x. apply silent_ret.
  Qed.
  Lemma brackets_initTable ti l : brackets (initTable ti l).
  Proof.
    apply brackets_bind.
    - apply brackets_bind; [|intros a; apply brackets_ret]. intros h r H. apply call_runs in H as (o & i & n & -> & _). repeat constructor.
    - intros _. destruct l; [apply brackets_ret|apply brackets_insert].
  Qed.
  Lemma brackets_initRow ti : brackets (initRow ti).
  Proof. apply brackets_silent. apply silent_bind; [apply silent_encode|]. intros b. repeat (apply silent_bind; [apply silent_pName|intros ?]). apply silent_ret. Qed.
  Lemma brackets_orFail {A} (q : A * option error) : brackets (orFail q).
  Proof. destruct q as [a [e|]]; apply brackets_ret. Qed.
  Lemma brackets_found nf q : brackets (found nf q).
  Proof. destruct q as [a [[]|]]; apply brackets_ret. Qed.
  Lemma brackets_drop ti g (ifExists : bool) nf :
    brackets (do! q := TypedTableDelete ti (Some g) (Some g) (fun (_ : bool) _ => pret (true, inl true)) false in
    do! deleted := orFail q in if deleted then pret tt else if ifExists then pret tt else pfail nf).
  Proof.
    apply brackets_bind; [apply bracketed_delete; apply quiet_true|]. intros q. apply brackets_bind; [apply brackets_orFail|]. intros [|]; [apply brackets_ret|]. destruct ifExists; apply brackets_ret.
  Qed.
  Lemma brackets_nextTableId I : brackets (nextTableId I).
  Proof.
    apply brackets_bind; [|intros q; apply brackets_orFail]. apply bracketed_update.
    intros s row h r H. apply runs_pbind in H as [(a & h1 & h2 & H1 & H2 & ->)|[(x & H1 & ->)|[H1 ->]]]; apply runs_ret in H1 as [-> H1].
      + apply runs_ret in H2 as [-> ->]. split; [reflexivity|discriminate].
      + symmetry in H1. now apply no_error_read in H1.
      + split; [reflexivity|discriminate].
  Qed.

  Theorem any_brackets I A p own : engine_function I A p own -> brackets p.
  Proof.
    intros H. destruct H as [dn|dn ifx| |dn sn|dn sn ifx|dn|tn|tn cn ct p|].
    - apply brackets_bind; [apply brackets_pName|]. intros d. apply brackets_insert.
    - apply brackets_bind; [apply brackets_pName|]. intros d. apply brackets_drop.
    - apply brackets_bind; [|intros q; apply brackets_orFail]. apply brackets_select. intros rs l row. apply visiting_silent. apply silent_bind; [apply silent_ret|]. intros g. apply silent_bind; [apply silent_pID|]. intros id. apply silent_ret.
    - apply brackets_bind; [apply brackets_pName|]. intros d. apply brackets_bind; [apply brackets_lookup|]. intros q. apply brackets_bind; [apply brackets_found|]. intros _. repeat (apply brackets_bind; [apply brackets_pName|intros ?]). apply brackets_insert.
    - repeat (apply brackets_bind; [apply brackets_pName|intros ?]). apply brackets_drop.
    - apply brackets_bind; [apply brackets_pName|]. intros d. apply brackets_bind; [apply brackets_lookup|]. intros q. apply brackets_bind; [apply brackets_found|]. intros _. apply brackets_bind; [apply brackets_pName|]. intros d1.
      apply brackets_bind; [|intros q1; apply brackets_orFail]. apply brackets_select. intros rs l row. apply visiting_silent. apply silent_bind; [apply silent_ret|]. intros g. apply silent_bind; [apply silent_pName|]. intros d2.
      destruct (bytes_eqb _ _); [|apply silent_ret]. apply silent_bind; [apply silent_pID|]. intros id. apply silent_ret.
    - repeat (apply brackets_bind; [apply brackets_pName|intros ?]). apply brackets_bind; [apply brackets_lookup|]. intros q. apply brackets_bind; [apply brackets_found|]. intros g. apply brackets_bind; [apply brackets_silent; apply silent_decode|]. intros tt. apply brackets_ret.
    - repeat (apply brackets_bind; [apply brackets_pName|intros ?]). apply brackets_bind; [apply brackets_lookup|]. intros q. apply brackets_bind; [apply brackets_found|]. intros _. apply brackets_bind; [apply brackets_silent; apply silent_encode|]. intros buf. apply brackets_bind; [apply brackets_nextTableId|]. intros tid.
      repeat (apply brackets_bind; [apply brackets_pName|intros ?]). apply brackets_insert.
    - repeat (apply brackets_bind; [apply brackets_initTable|intros _]). repeat (apply brackets_bind; [apply brackets_initRow|intros ?]). apply brackets_insert.
  Qed.
End Brackets.

(** ** Transactions *)
Lemma pthen_runs {A B} (p : prog A) (k : res A -> prog B) h1 r1 h2 r : runs p h1 r1 -> runs (k r1) h2 r -> runs (pthen p k) (h1 ++ h2) r.
Proof. intros H K. induction H; cbn [pthen app]; [exact K|apply run_call with n; auto|apply run_id with id; auto|apply run_name with s; auto]. Qed.
Lemma runs_of_call c o i : runs (call c) [(c, o, i)] (match o with ODone => Ok (i, O) | OErr e => Err e | _ => Panic end).
Proof. unfold call. apply run_call with O. destruct o; apply run_ret. Qed.
Theorem completing_runs {A} (p : prog A) h r : runs (completing p) h r <-> completed p h r.
Proof.
  split.
  - intros H. apply runs_pthen in H as (h1 & r1 & h2 & H1 & H2 & ->). exists h1, r1. split; [exact H1|]. destruct r1 as [a|e|].
    + apply runs_pthen in H2 as (h3 & r3 & h4 & J1 & J2 & ->). apply call_runs in J1 as (o & i & n & -> & ->). exists o, i. destruct o; apply runs_ret in J2 as [-> ->]; auto.
    + apply runs_pthen in H2 as (h3 & r3 & h4 & J1 & J2 & ->). apply call_runs in J1 as (o & i & n & -> & ->). exists o, i. destruct o; apply runs_ret in J2 as [-> ->]; auto.
    + apply runs_ret in H2 as [-> ->]. now rewrite app_nil_r.
  - intros (h1 & r1 & H1 & K). destruct r1 as [a|e|].
    + destruct K as (o & i & -> & ->). eapply pthen_runs; [exact H1|]. change [(CCommit, o, i)] with ([(CCommit, o, i)] ++ []). eapply pthen_runs; [apply runs_of_call|]. destruct o; apply run_ret.
    + destruct K as (o & i & -> & ->). eapply pthen_runs; [exact H1|]. change [(CRollback, o, i)] with ([(CRollback, o, i)] ++ []). eapply pthen_runs; [apply runs_of_call|]. destruct o; apply run_ret.
    + destruct K as [-> ->]. rewrite <- (app_nil_r h1). eapply pthen_runs; [exact H1|apply run_ret].
Qed.

(** ** The basic store *)
Section Basic.
  Context {X : FloatLib} {L : CaseLib} {G : GobLib}.

  Theorem exec_runs {A} x (p : prog A) : forall w r w' h, exec w x p = (r, w', h) -> exists h', runs p h' r /\ map (called x) h' = filter is_call h.
  Proof.
    induction p as [r0|c f IH|s q f IH|i f IH]; intros w r w' h H; cbn [exec] in H.
    - injection H as <- <- <-. exists []. split; [constructor|reflexivity].
    - destruct (step w (Call x c)) as [o w1]. destruct (exec w1 x _) as [[r2 w2] h2] eqn:Ex. injection H as <- <- <-. apply IH in Ex as (h' & H1 & H2). exists ((c, o, fst (made w1 x c)) :: h'). split; [eapply run_call; exact H1|].
      cbn. unfold called at 1. cbn. now rewrite H2.
    - destruct (step w (Intern s q)) as [o w1]. destruct (exec w1 x _) as [[r2 w2] h2] eqn:Ex. injection H as <- <- <-. apply IH in Ex as (h' & H1 & H2). exists h'. split; [eapply run_id; exact H1|]. exact H2.
    - apply IH in H as (h' & H1 & H2). exists h'. split; [eapply run_name; exact H1|]. exact H2.
  Qed.

  (** Only [Next] returns the end of the file. *)
  Definition noeof {A} (m : M A) : Prop := forall s s', m s <> (Err EOF, s').
  Lemma noeof_ret {A} (a : A) : noeof (ret a).
  Proof. intros s s' H. discriminate H. Qed.
  Lemma noeof_panic {A} : noeof (@panic A).
  Proof. intros s s' H. discriminate H. Qed.
  Lemma noeof_fail {A} e : e <> EOF -> noeof (@fail A e).
  Proof. intros Ne s s' H. injection H as H _. now apply Ne. Qed.
  Lemma noeof_lift {A} (o : option A) : noeof (lift o).
  Proof. intros s s' H. destruct o; discriminate H. Qed.
  Lemma noeof_getSh : noeof getSh.
  Proof. intros s s' H. discriminate H. Qed.
  Lemma noeof_getTx : noeof getTx.
  Proof. intros s s' H. discriminate H. Qed.
  Lemma noeof_putSh x : noeof (putSh x).
  Proof. intros s s' H. discriminate H. Qed.
  Lemma noeof_putTx x : noeof (putTx x).
  Proof. intros s s' H. discriminate H. Qed.
  Lemma noeof_bind {A B} (m : M A) (f : A -> M B) : noeof m -> (forall a, noeof (f a)) -> noeof (bind m f).
  Proof.
    intros Hm Hf s s' H. unfold bind in H. pose proof (Hm s) as K. destruct (m s) as [[a|e|] s1]; [exact (Hf a _ _ H)| |discriminate H].
    injection H as -> ->. now apply (K s').
  Qed.

  Ltac noeof := repeat first
    [ apply noeof_ret | apply noeof_panic | apply noeof_lift | apply noeof_getSh | apply noeof_getTx | apply noeof_putSh | apply noeof_putTx
    | apply noeof_fail; discriminate | solve [auto] | apply noeof_bind; [|intros ?]
    | match goal with |- noeof (match ?x with _ => _ end) => destruct x end ].

  Lemma noeof_readTree : noeof readTree.
  Proof. unfold readTree. noeof. Qed.
  Lemma noeof_writeTree t : noeof (writeTree t).
  Proof. unfold writeTree. noeof. Qed.
  Lemma noeof_forWrite : noeof forWrite.
  Proof. unfold forWrite. noeof. Qed.
  Lemma noeof_getTableType tid : noeof (getTableType tid).
  Proof. pose proof noeof_readTree. unfold getTableType. noeof. Qed.
  Lemma noeof_convert cts r : ConvertRow cts r <> Err EOF.
  Proof.
    unfold ConvertRow. destruct (_ <? _); [discriminate|]. revert r. induction cts as [|ct cts IH]; intros [|v r]; cbn [convertRowLoop]; try discriminate.
    assert (K : ConvertValue ct v <> Err EOF).
    { assert (K : CastValue (ct_type ct) v <> Err EOF).
      { unfold CastValue. repeat match goal with |- match ?x with _ => _ end <> _ => destruct x | |- (let _ := _ in _) <> _ => cbv zeta end; discriminate. }
      unfold ConvertValue. destruct v; [destruct (ct_notnull ct); discriminate|..];
        (destruct (CastValue _ _) as [x|e|]; cbn [rbind]; [|intros J; now injection J as ->|discriminate]);
        repeat match goal with |- match ?x with _ => _ end <> _ => destruct x end; discriminate. }
    destruct (ConvertValue ct v); cbn [rbind]; [|congruence|discriminate]. specialize (IH r). destruct (convertRowLoop cts r); cbn [rbind]; congruence.
  Qed.
  Lemma noeof_insertRows tbl rs : noeof (insertRows tbl rs).
  Proof.
    pose proof noeof_readTree. induction rs as [|r rs IH]; cbn [insertRows]; [apply noeof_ret|]. apply noeof_bind; [|intros r1; noeof; auto using noeof_writeTree].
    intros s s' K. injection K as K _. now apply noeof_convert in K.
  Qed.
  Lemma noeof_insert tbl rs : noeof (Insert tbl rs).
  Proof. apply noeof_bind; [apply noeof_forWrite|]. intros _. apply noeof_insertRows. Qed.
  Lemma noeof_delete tbl key : noeof (Delete tbl key).
  Proof. pose proof noeof_readTree. pose proof noeof_forWrite. pose proof noeof_writeTree. unfold Delete. noeof; auto. Qed.

  Lemma eof_step w x c w' : step w (Call x c) = (OErr EOF, w') -> exists rs, c = CNext rs.
  Proof.
    unfold step. destruct (find_tx _ _) as [tx|]; [|discriminate]. destruct (callStep (w_sh w, tx) c) as [o [sh' tx']] eqn:Ec. intros H. injection H as -> _.
    assert (Q : forall A (f : A -> outcome) m s, noeof m -> (forall a, f a <> OErr EOF) -> runM f m s <> (OErr EOF, (sh', tx'))).
    { intros A f m s Hm Hf K. unfold runM in K. pose proof (Hm s) as J. destruct (m s) as [[a|e|] s1]; cbn in K; [injection K as K _; now apply Hf in K| |discriminate K]. injection K as -> K. now apply (J s1). }
    pose proof noeof_readTree. pose proof noeof_writeTree. pose proof noeof_forWrite. pose proof noeof_getTableType. pose proof noeof_insert. pose proof noeof_delete.
    destruct c; cbn [callStep] in Ec; [exfalso ..|eexists; reflexivity|exfalso|exfalso|exfalso|exfalso];
      repeat match type of Ec with (match ?x with _ => _ end) = _ => destruct x; [|discriminate Ec] end;
      try discriminate Ec; (apply Q in Ec; [exact Ec| |discriminate]).
    all: unfold OpenTable, CreateTable, DropTable, Commit, Rollback, complete, Rows, Current, Close, Update, setTableType, deleteTableType; noeof; auto.
  Qed.
  Theorem exec_eof {A} x (p : prog A) : forall w r w' h, exec w x p = (r, w', h) -> Forall (fun a => snd a = OErr EOF -> exists rs, fst a = Call x (CNext rs)) h.
  Proof.
    induction p as [r0|c f IH|s q f IH|i f IH]; intros w r w' h H; cbn [exec] in H.
    - injection H as <- <- <-. constructor.
    - destruct (step w (Call x c)) as [o w1] eqn:Es. destruct (exec w1 x _) as [[r2 w2] h2] eqn:Ex. injection H as <- <- <-. apply IH in Ex. constructor; [|exact Ex]. cbn. intros ->. apply eof_step in Es as [rs ->]. now exists rs.
    - destruct (step w (Intern s q)) as [o w1] eqn:Es. destruct (exec w1 x _) as [[r2 w2] h2] eqn:Ex. injection H as <- <- <-. apply IH in Ex. constructor; [|exact Ex]. cbn in Es. injection Es as <- <-. discriminate.
    - now apply IH in H.
  Qed.
  Theorem basic_runs {A} w x (p : prog A) r w' h : exec w x p = (r, w', h) -> exists h', runs p h' r /\ map (called x) h' = filter is_call h /\ eof_from_next h'.
  Proof.
    intros H. pose proof (exec_eof x p _ _ _ _ H) as K. apply exec_runs in H as (h' & H1 & H2). exists h'. split; [exact H1|]. split; [exact H2|].
    unfold eof_from_next. rewrite Forall_forall in *. intros e He Eo. left. assert (J : In (called x e) (filter is_call h)) by (rewrite <- H2; now apply in_map). apply filter_In in J as [J _]. apply K in J; [|exact Eo].
    destruct J as [rs J]. injection J as J. now exists rs.
  Qed.
End Basic.
