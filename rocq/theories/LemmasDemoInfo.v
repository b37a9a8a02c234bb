(** Structs for the properties of the columns made for them. *)

From Verif Require Import ModelTyped SpecInfo SpecStore LemmasExec LemmasEngineInit LemmasInfo LemmasEngine LemmasIdent LemmasDemo LemmasDemoTyped.
From Coq Require Import Lia.

Lemma info_exec {X : FloatLib} {L : CaseLib} {G : GobLib} {U : RuneLib} w x tid tn st r w' h :
  exec w x (MakeTypedInfo tid tn st) = (r, w', h) ->
  qrun (sh_idt (w_sh w)) (MakeTypedInfo tid tn st) = (r, sh_idt (w_sh w')) /\ Forall is_intern (map fst h).
Proof.
  intros H. split.
  - exact (proj1 (exec_quiet x _ (quiet_info tid tn st) _ _ _ _ H)).
  - exact (quiet_log x _ (quiet_info tid tn st) _ _ _ _ H).
Qed.

(** Two fields that differ in a capital. *)
Definition twins_type : stype := {|
  st_name := str "twins";
  st_fields := [
    {| fd_name := runes "UserID"; fd_tag := str "primary"; fd_type := FTBase KInt64 |};
    {| fd_name := runes "UserId"; fd_tag := []; fd_type := FTBase KInt64 |}]
|}.
(** A size that does not fit into 32 bits. *)
Definition huge_type : stype := {|
  st_name := str "huge";
  st_fields := [{| fd_name := runes "Text"; fd_tag := str "size=4294967296"; fd_type := FTBase KString |}]
|}.

Lemma demo_lower r : code_point r -> code_point (@x_rune_lower demo_U r).
Proof.
  unfold code_point. intros [H1 H2]. cbn.
  repeat match goal with |- context [if ?b then _ else _] => destruct b eqn:? end; lia.
Qed.

Lemma demo_names_ok st : forallb (fun f => forallb (fun r => (0 <=? r) && (r <? 128)) (fd_name f)) (st_fields st) = true ->
  @names_ok demo_U st.
Proof.
  intros H. split; [|exact demo_lower]. intros f Hf. rewrite forallb_forall in H. specialize (H f Hf).
  apply Forall_forall. intros r Hr. rewrite forallb_forall in H. specialize (H r Hr).
  apply andb_true_iff in H. destruct H as [Ha Hb]. apply Z.leb_le in Ha. apply Z.ltb_lt in Hb.
  unfold code_point. lia.
Qed.

Definition demo_ids : idtable := sh_idt (w_sh (demo_world demo_names)).

Lemma twins_witness :
  exists (U : RuneLib) (L : CaseLib) t tid tn st ti t',
    names_ok st /\ NoDup (map fd_name (st_fields st)) /\ CaseLib_ok L /\
    qrun t (MakeTypedInfo tid tn st) = (Ok ti, t') /\ ~ NoDup (ti_cols ti).
Proof.
  exists demo_U, demo_L, demo_ids, 21, demo_tn, twins_type.
  destruct (@qrun typedinfo demo_L demo_ids (@MakeTypedInfo demo_U 21 demo_tn twins_type)) as [r t'] eqn:E.
  assert (match r with Ok ti => nth_error (ti_cols ti) 0 = nth_error (ti_cols ti) 1 /\ length (ti_cols ti) = 2%nat | _ => False end) as H.
  { change r with (fst (r, t')). rewrite <- E. vm_compute. split; reflexivity. }
  destruct r as [ti| |]; try contradiction. exists ti, t'. split; [now apply demo_names_ok|].
  split; [repeat constructor; cbn; intuition discriminate|]. split; [exact CaseLib_ascii_ok|]. split; [reflexivity|].
  intros Hd. destruct H as [H1 H2]. rewrite NoDup_nth_error in Hd. specialize (Hd 0%nat 1%nat ltac:(rewrite H2; auto) H1). discriminate.
Qed.

Lemma huge_witness :
  exists (U : RuneLib) (L : CaseLib) t tid tn st ti t' ct,
    names_ok st /\ CaseLib_ok L /\ map fd_tag (st_fields st) = [str "size=4294967296"] /\
    qrun t (MakeTypedInfo tid tn st) = (Ok ti, t') /\ ti_types ti = [ct] /\ ct_type ct = StringType /\ ct_size ct = 0.
Proof.
  exists demo_U, demo_L, demo_ids, 21, demo_tn, huge_type.
  destruct (@qrun typedinfo demo_L demo_ids (@MakeTypedInfo demo_U 21 demo_tn huge_type)) as [r t'] eqn:E.
  assert (match r with Ok ti => ti_types ti = [{| ct_type := StringType; ct_size := 0; ct_fixed := false; ct_notnull := true |}] | _ => False end) as H.
  { change r with (fst (r, t')). rewrite <- E. vm_compute. reflexivity. }
  destruct r as [ti| |]; try contradiction. eexists ti, t', _. split; [now apply demo_names_ok|].
  split; [exact CaseLib_ascii_ok|]. split; [reflexivity|]. split; [reflexivity|]. split; [exact H|]. split; reflexivity.
Qed.

(** The columns of users. *)
Definition user_columns : list (bytes * coltype * bool) := [
  (str "user_id", {| ct_type := Int64Type; ct_size := 4; ct_fixed := false; ct_notnull := true |}, true);
  (str "name", {| ct_type := StringType; ct_size := 10; ct_fixed := false; ct_notnull := false |}, false);
  (str "blob", {| ct_type := BytesType; ct_size := 4; ct_fixed := false; ct_notnull := false |}, false);
  (str "score", {| ct_type := Float64Type; ct_size := 8; ct_fixed := false; ct_notnull := true |}, false)].

Lemma user_described : Forall2 (@described demo_U) (st_fields user_type) user_columns.
Proof.
  apply (proj2 (@found_all demo_U user_type (demo_names_ok user_type eq_refl) user_columns)).
  repeat constructor.
Qed.

(** A notnull that is not on a slice. *)
Definition wrong_type : stype := {|
  st_name := str "wrong";
  st_fields := [{| fd_name := runes "Text"; fd_tag := str "notnull"; fd_type := FTBase KString |}]
|}.
Lemma wrong_undescribed : ~ exists cs, Forall2 (@described demo_U) (st_fields wrong_type) cs.
Proof.
  intros [cs H]. apply (proj1 (@found_all demo_U wrong_type (demo_names_ok wrong_type eq_refl) cs)) in H.
  inversion H as [|f c fs cs' H1 H2]. subst. vm_compute in H1. discriminate H1.
Qed.
