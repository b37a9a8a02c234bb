(** Reading a row into a struct. *)

From Verif Require Import ModelTyped SpecTyped SpecRead LemmasBase LemmasKey LemmasValue LemmasTyped LemmasTypedTable.

Lemma wrap_cong n i : 0 < n -> let j := (i + 2 ^ (8 * n - 1)) mod 2 ^ (8 * n) - 2 ^ (8 * n - 1) in
  - 2 ^ (8 * n - 1) <= j < 2 ^ (8 * n - 1) /\ (2 ^ (8 * n) | i - j).
Proof.
  intros Hn j. assert (2 ^ (8 * n) = 2 * 2 ^ (8 * n - 1)) as E.
  { replace (8 * n) with (1 + (8 * n - 1)) at 1 by lia. rewrite Z.pow_add_r by lia. reflexivity. }
  assert (0 < 2 ^ (8 * n - 1)) as Hp by (apply Z.pow_pos_nonneg; lia).
  pose proof (Z.mod_pos_bound (i + 2 ^ (8 * n - 1)) (2 ^ (8 * n)) ltac:(lia)) as Hm. subst j. split; [lia|].
  pose proof (Z.div_mod (i + 2 ^ (8 * n - 1)) (2 ^ (8 * n)) ltac:(lia)) as D.
  exists ((i + 2 ^ (8 * n - 1)) / 2 ^ (8 * n)). lia.
Qed.

Lemma wrap_one m i j j' : 0 < m -> - m <= j < m -> - m <= j' < m -> (2 * m | i - j) -> (2 * m | i - j') -> j = j'.
Proof. intros Hm H1 H2 [a Ha] [b Hb]. assert (2 * m * (b - a) = j - j') as E by lia. assert (b - a = 0) as E0 by nia. lia. Qed.

Lemma wrapInt_spec k i n : int_size k = Some n -> in_kind k (wrapInt k i) /\ (2 ^ kind_bits k | i - wrapInt k i).
Proof.
  intros H. unfold wrapInt. rewrite H. destruct k; cbn [int_size] in H; try discriminate H; injection H as <-;
    match goal with |- context [8 * ?n - 1] => exact (wrap_cong n i ltac:(lia)) end.
Qed.

Lemma wrapInt_one k i j : in_kind k j -> (2 ^ kind_bits k | i - j) -> j = wrapInt k i.
Proof.
  intros Hj Hd. assert (exists n, int_size k = Some n) as [n Hn] by (destruct k; try contradiction Hj; eexists; reflexivity).
  destruct (wrapInt_spec k i n Hn) as [H1 H2]. generalize (wrapInt k i) H1 H2. clear H1 H2. intros j' H1 H2.
  destruct k; try contradiction Hj; cbn [in_kind kind_bits] in *.
  - apply (wrap_one (2 ^ 63) i); auto; lia.
  - apply (wrap_one (2 ^ 7) i); auto; lia.
  - apply (wrap_one (2 ^ 15) i); auto; lia.
  - apply (wrap_one (2 ^ 31) i); auto; lia.
  - apply (wrap_one (2 ^ 63) i); auto; lia.
Qed.

Section Read.
  Context {F : Float32Lib}.

  (** One field. *)
  Lemma field_into tags ft ct v f : fieldType tags ft = Some ct -> (valueToField ct ft v = Ok f <-> into ct ft v f).
  Proof.
    intros HT. unfold fieldType in HT; cbv zeta in HT. destruct (tagSize tags) as [size|]; [|discriminate].
    assert (forall a b : fval, Ok a = Ok b <-> b = a) as K by (intros; split; [now intros [= <-]|now intros ->]).
    assert (forall b : fval, Panic = Ok b <-> False) as K0 by (intros; split; [discriminate|contradiction]).
    assert (forall k n i, int_size k = Some n -> Ok (FInt k (wrapInt k i)) = Ok f <-> exists j, f = FInt k j /\ in_kind k j /\ (2 ^ kind_bits k | i - j)) as KI.
    { intros k n i Hn. split.
      - intros [= <-]. exists (wrapInt k i). split; [reflexivity|]. exact (wrapInt_spec k i n Hn).
      - intros (j & -> & H1 & H2). now rewrite (wrapInt_one k i j H1 H2). }
    destruct ft as [k|k], k; cbn [int_size] in HT; try discriminate HT; try (destruct (tag tags (str "notnull")); try discriminate HT);
      injection HT as <-; destruct v; cbn [valueToField ct_notnull ct_type into int_size negb zeroOf];
      first [apply K|apply K0|eapply KI; reflexivity|idtac].
    all: split; [first [discriminate|now intros [= <-]]|]; first [intros (j & _ & [] & _)|intros [H ->]; first [discriminate H|reflexivity]].
  Qed.

  Lemma field_panics tags ft ct v : fieldType tags ft = Some ct -> valueToField ct ft v = Panic \/ exists f, valueToField ct ft v = Ok f.
  Proof.
    intros _. unfold valueToField.
    repeat match goal with |- context [match ?c with _ => _ end] => destruct c end; eauto.
  Qed.

  Lemma fields_panic flds cts : Forall2 column_of flds cts -> forall r, rowToFields cts flds r = Panic \/ exists fs, rowToFields cts flds r = Ok fs.
  Proof.
    induction 1 as [|fd ct flds cts (tags & _ & Hc) HC IH]; intros r; [right; eexists; reflexivity|].
    destruct r as [|v r]; [left; reflexivity|]. cbn [rowToFields].
    destruct (field_panics tags _ ct v Hc) as [->|[f ->]]; [left; reflexivity|]. cbn [rbind].
    destruct (IH r) as [->|[fs ->]]; [left; reflexivity|right; eexists; reflexivity].
  Qed.

  Lemma fields_filled flds cts : Forall2 column_of flds cts -> forall r fs,
    rowToFields cts flds r = Ok fs <->
    length fs = length flds /\ forall i fd ct, nth_error flds i = Some fd -> nth_error cts i = Some ct ->
      exists v f, nth_error r i = Some v /\ nth_error fs i = Some f /\ into ct (fd_type fd) v f.
  Proof.
    induction 1 as [|fd ct flds cts (tags & _ & Hc) HC IH]; intros r fs; cbn [rowToFields].
    - split.
      + intros [= <-]. split; [reflexivity|]. intros [|i]; discriminate.
      + intros [H _]. destruct fs; [reflexivity|discriminate H].
    - split.
      + destruct r as [|v r]; [discriminate|].
        destruct (valueToField ct (fd_type fd) v) as [f| |] eqn:Ef; cbn [rbind]; try discriminate.
        destruct (rowToFields cts flds r) as [fs1| |] eqn:Er; cbn [rbind]; try discriminate. intros [= <-].
        apply IH in Er as [E1 E2]. split; [cbn [length]; lia|]. intros [|i] fd1 ct1; cbn [nth_error].
        * intros [= <-] [= <-]. exists v, f. split; [reflexivity|]. split; [reflexivity|]. now apply (field_into tags).
        * apply E2.
      + intros [H1 H2]. destruct fs as [|f fs]; [discriminate H1|].
        destruct (H2 0%nat fd ct eq_refl eq_refl) as (v & f1 & Hv & Hf & Hi). cbn [nth_error] in Hf. injection Hf as <-.
        destruct r as [|v1 r]; [discriminate Hv|]. cbn [nth_error] in Hv. injection Hv as ->.
        apply (field_into tags) in Hi; [|exact Hc]. rewrite Hi. cbn [rbind].
        assert (rowToFields cts flds r = Ok fs) as ->; [|reflexivity].
        apply IH. split; [cbn [length] in H1; lia|]. intros i. exact (H2 (S i)).
  Qed.

  Lemma read_exact ti st r g g' : made_for ti st ->
    (RowToStruct ti r g = Ok g' <-> gs_type g = st_name st /\ gs_type g' = st_name st /\ filled ti st r (gs_fields g')).
  Proof.
    intros M. apply made_info in M. unfold RowToStruct. rewrite (io_typ _ _ M).
    destruct (bytes_eqb (gs_type g) (st_name st)) eqn:Eb.
    - apply bytes_eqb_eq in Eb. split.
      + destruct (rowToFields (ti_types ti) (st_fields st) r) as [fs| |] eqn:Er; cbn [rbind]; try discriminate. intros [= <-].
        cbn [gs_type gs_fields]. split; [exact Eb|]. split; [exact Eb|]. now apply fields_filled; [exact (io_types _ _ M)|].
      + intros (_ & E & Hf). destruct g' as [t fs]. cbn [gs_type gs_fields] in *.
        apply (proj2 (fields_filled _ _ (io_types _ _ M) r fs)) in Hf. rewrite Hf. cbn [rbind]. congruence.
    - split; [discriminate|]. intros (E & _). apply bytes_eqb_eq in E. congruence.
  Qed.

  Lemma read_panics_else ti st r g : made_for ti st -> RowToStruct ti r g = Panic \/ exists g', RowToStruct ti r g = Ok g'.
  Proof.
    intros M. apply made_info in M. unfold RowToStruct. rewrite (io_typ _ _ M).
    destruct (bytes_eqb (gs_type g) (st_name st)); [|left; reflexivity].
    destruct (fields_panic _ _ (io_types _ _ M) r) as [->|[fs ->]]; [left; reflexivity|right; eexists; reflexivity].
  Qed.

  (** What was read, written again. *)
  Lemma field_again tags ft ct v : fieldType tags ft = Some ct -> admits ct v -> wf_value v ->
    ((exists f, valueToField ct ft v = Ok f /\ fieldToValue ct f = Ok v) <-> holds ft v).
  Proof.
    intros HT Ha Hw. pose proof (fun f => field_into tags ft ct v f HT) as HI.
    assert (forall k i, fieldType tags (FTBase k) = Some ct -> ct_type ct = Int64Type -> ct_notnull ct = true -> v = VInt i -> ft = FTBase k ->
       forall n, int_size k = Some n ->
       ((exists f, valueToField ct ft v = Ok f /\ fieldToValue ct f = Ok v) <-> in_kind k i)) as KI.
    { intros k i _ H1 H2 -> -> n Hn. unfold valueToField, fieldToValue. rewrite H1, H2, Hn. split.
      - intros (f & [= <-] & [= E]). rewrite <- E. exact (proj1 (wrapInt_spec k i n Hn)).
      - intros H. eexists. split; [reflexivity|]. now rewrite (wrapInt_id k i H). }
    clear HI. pose proof HT as HT0. unfold fieldType in HT; cbv zeta in HT. destruct (tagSize tags) as [size|]; [|discriminate].
    destruct ft as [k|k], k; cbn [int_size] in HT; try discriminate HT; try (destruct (tag tags (str "notnull")) eqn:Etag; try discriminate HT);
      injection HT as <-; destruct v; cbn [admits ct_notnull ct_type ct_size wf_value] in Ha, Hw;
      try discriminate Ha; try (discriminate (proj1 Ha)); cbn [holds readable].
    all: try (rewrite (KI _ _ HT0 eq_refl eq_refl eq_refl eq_refl _ eq_refl); cbn [in_kind]; unfold is_i64 in Hw; destruct Ha as (_ & A2 & A4);
              split; intros H; try exact I; first [lia|specialize (A2 eq_refl); lia|specialize (A4 eq_refl); lia]).
    all: unfold valueToField, fieldToValue; cbn [ct_notnull ct_type ct_size negb].
    all: try (destruct Ha as (_ & Ha)).
    all: try (split; [intros (f & E & _); first [discriminate E|exact I|auto]|
               intros H; first [contradiction H|(exfalso; destruct H as [H|[H|[H|H]]]; discriminate H)|
                 (eexists; split; [reflexivity|]; cbn [valueString zeroOf]; 
                  first [reflexivity|destruct (Z.ltb_spec size (zlen s)); [lia|reflexivity]])]]).
    split.
    - intros (f & [= <-] & [= E]). exact E.
    - intros E. eexists. split; [reflexivity|]. now rewrite E.
  Qed.

  Lemma fields_again flds cts : Forall2 column_of flds cts -> forall r, Forall2 admits cts r -> Forall wf_value r ->
    ((exists fs, rowToFields cts flds r = Ok fs /\ fieldsToRow cts fs = Ok r) <-> Forall2 (fun fd v => holds (fd_type fd) v) flds r).
  Proof.
    induction 1 as [|fd ct flds cts (tags & _ & Hc) HC IH]; intros r Ha Hw.
    - inversion Ha; subst. split; [constructor|]. intros _. exists []. split; reflexivity.
    - inversion Ha as [|? v ? r1 Ha1 Ha2]; subst. inversion Hw as [|? ? Hw1 Hw2]; subst.
      pose proof (field_again tags _ ct v Hc Ha1 Hw1) as K. specialize (IH r1 Ha2 Hw2). cbn [rowToFields]. split.
      + intros (fs & E1 & E2). destruct (valueToField ct (fd_type fd) v) as [f| |]; cbn [rbind] in E1; try discriminate E1.
        destruct (rowToFields cts flds r1) as [fs1| |]; cbn [rbind] in E1; try discriminate E1. injection E1 as <-.
        cbn [fieldsToRow] in E2. destruct (fieldToValue ct f) as [y| |] eqn:Ey; cbn [rbind] in E2; try discriminate E2.
        destruct (fieldsToRow cts fs1) as [r2| |] eqn:Er; cbn [rbind] in E2; try discriminate E2. injection E2 as -> ->.
        constructor; [apply K; eauto|apply IH; eauto].
      + intros HH. inversion HH as [|? ? ? ? H1 H2]; subst. apply K in H1 as (f & E1 & E2). apply IH in H2 as (fs & E3 & E4).
        exists (f :: fs). rewrite E1. cbn [rbind]. rewrite E3. split; [reflexivity|]. cbn [fieldsToRow]. rewrite E2. cbn [rbind]. now rewrite E4.
  Qed.

  Lemma read_again ti st r g : made_for ti st -> Forall2 admits (ti_types ti) r -> Forall wf_value r -> gs_type g = st_name st ->
    ((exists g', RowToStruct ti r g = Ok g' /\ structToRow ti (Some g') = Ok (Some r)) <->
     Forall2 (fun fd v => holds (fd_type fd) v) (st_fields st) r).
  Proof.
    intros M Ha Hw Hg. apply made_info in M. rewrite <- (fields_again _ _ (io_types _ _ M) r Ha Hw).
    unfold RowToStruct, structToRow. rewrite (io_typ _ _ M), Hg, (proj2 (bytes_eqb_eq _ _) eq_refl). split.
    - intros (g' & E1 & E2). destruct (rowToFields _ _ _) as [fs| |]; cbn [rbind] in E1; try discriminate E1. injection E1 as <-.
      cbn [gs_type gs_fields] in E2. rewrite (proj2 (bytes_eqb_eq _ _) eq_refl) in E2. exists fs. split; [reflexivity|].
      destruct (fieldsToRow _ _) as [r'| |]; cbn [rbind] in E2; try discriminate E2. injection E2 as ->. reflexivity.
    - intros (fs & E1 & E2). rewrite E1. cbn [rbind]. eexists. split; [reflexivity|]. cbn [gs_type gs_fields].
      rewrite (proj2 (bytes_eqb_eq _ _) eq_refl), E2. reflexivity.
  Qed.

  (** What was read is a struct of the type. *)
  Lemma field_typed (HF : Float32Lib_ok F) tags ft ct v f : fieldType tags ft = Some ct -> wf_value v -> into ct ft v f -> has_type ft f.
  Proof.
    intros HT Hw Hi. destruct ft as [k|k].
    - destruct v; cbn [into wf_value] in *.
      + destruct k; try contradiction Hi. destruct Hi as [_ ->]. reflexivity.
      + destruct k; try contradiction Hi. subst f. reflexivity.
      + destruct k; try contradiction Hi; subst f; reflexivity.
      + destruct k; try contradiction Hi; subst f; reflexivity.
      + destruct k; try contradiction Hi; subst f; cbn [has_type of_kind].
        * split; [reflexivity|]. split; [exact (proj1 (HF _ Hw))|]. right. split; [reflexivity|]. eauto.
        * split; [reflexivity|]. split; [exact Hw|]. left. reflexivity.
      + assert (exists j, f = FInt k j /\ in_kind k j) as (j & -> & Hj).
        { destruct k; destruct Hi as (j & E & Hj & _); exists j; auto. }
        split; [reflexivity|exact Hj].
    - destruct v; cbn [into wf_value] in *.
      + exists None. split; [destruct k; exact Hi|discriminate].
      + destruct k; try contradiction Hi; subst f; cbn [has_type]; eexists; (split; [reflexivity|]); intros ? [= <-]; reflexivity.
      + destruct k; try contradiction Hi; subst f; cbn [has_type]; eexists; (split; [reflexivity|]); intros ? [= <-]; reflexivity.
      + destruct k; contradiction Hi.
      + destruct k; try contradiction Hi; subst f; cbn [has_type]; eexists; (split; [reflexivity|]); intros ? [= <-].
        split; [reflexivity|]. split; [exact Hw|]. left. reflexivity.
      + destruct k; try contradiction Hi; subst f; cbn [has_type]; eexists; (split; [reflexivity|]); intros ? [= <-].
        split; [reflexivity|]. exact Hw.
  Qed.

  Lemma read_typed : Float32Lib_ok F -> forall ti st r g g', made_for ti st -> Forall wf_value r -> RowToStruct ti r g = Ok g' -> of_struct st g'.
  Proof.
    intros HF ti st r g g' M Hw E. apply (read_exact _ _ _ _ _ M) in E as (_ & E & Hl & Hf). split; [exact E|].
    apply made_info in M. pose proof (io_types _ _ M) as HT. apply Forall2_nth in HT as [L1 L2]. apply Forall2_nth. split; [now symmetry|].
    intros i fd f H1 H2. destruct (nth_error (ti_types ti) i) as [ct|] eqn:Hc.
    - destruct (Hf i fd ct H1 Hc) as (v & f1 & H3 & H4 & H5). assert (f1 = f) as -> by congruence.
      destruct (L2 i fd ct H1 Hc) as (tags & _ & Ht). apply (field_typed HF tags (fd_type fd) ct v f Ht); [|exact H5].
      exact (proj1 (Forall_forall _ _) Hw v (nth_error_In _ _ H3)).
    - apply nth_error_None in Hc. assert (i < length (st_fields st))%nat as Hi by (apply nth_error_Some; congruence). lia.
  Qed.
End Read.

(** ** What is stored *)
Definition conv (ct : coltype) (v : fval) : res value :=
  match ct_type ct with
  | BoolType => match v with FBool b => Ok (VBool b) | _ => Panic end
  | StringType =>
      match valueString v with
      | Some s => if ct_size ct <? zlen s then Panic else Ok (VString s)
      | None => Panic
      end
  | BytesType =>
      match v with
      | FBytes o =>
          let b := match o with Some b => b | None => [] end in
          if ct_size ct <? zlen b then Panic else Ok (VBytes b)
      | _ => Panic
      end
  | Float64Type => match v with FFloat _ p => Ok (VFloat p) | _ => Panic end
  | Int64Type => match v with FInt _ i => Ok (VInt i) | _ => Panic end
  | UnknownType => Panic
  end.
Lemma other_text v : named_type v -> (forall s, v <> FString s) -> valueString v = Some (str "<" ++ type_text v ++ str " Value>").
Proof.
  destruct v as [b|k i|k p|s|o|k o|]; cbn [named_type]; intros H N; try (now destruct (N s)); try (destruct H); try reflexivity; destruct k; try (now destruct H); reflexivity.
Qed.
Lemma conv_stored ct v w : named_type v -> (conv ct v = Ok w <-> stored_as (ct_type ct) (ct_size ct) v w).
Proof.
  intros N. unfold conv. split.
  - destruct (ct_type ct) eqn:Et; try discriminate.
    + destruct v; try discriminate. intros H. injection H as <-. now constructor.
    + destruct (valueString v) as [s|] eqn:Ev; [|discriminate]. destruct (Z.ltb_spec (ct_size ct) (zlen s)); [discriminate|]. intros H1. injection H1 as <-.
      destruct v as [b|k i|k p|s0|o|k o|];
        try (apply sa_other; [reflexivity|discriminate| |assumption]; rewrite other_text in Ev by (exact N || discriminate); now injection Ev as <-).
      injection Ev as <-. now constructor.
    + destruct v as [b|k i|k p|s0|[b|]|k o|]; try discriminate; cbv zeta.
      * destruct (Z.ltb_spec (ct_size ct) (zlen b)); [discriminate|]. intros H1. injection H1 as <-. now constructor.
      * destruct (Z.ltb_spec (ct_size ct) (zlen (@nil Byte.byte))) as [|H]; [discriminate|]. intros H1. injection H1 as <-. now constructor.
    + destruct v; try discriminate. intros H. injection H as <-. now constructor.
    + destruct v; try discriminate. intros H. injection H as <-. now constructor.
  - intros H. destruct H as [b E|k i E|k p E|E H|b E H|s E H|v s E Ns -> H]; rewrite E; try reflexivity.
    + cbv zeta. destruct (Z.ltb_spec (ct_size ct) (zlen (@nil Byte.byte))) as [K|K]; [unfold zlen in K; cbn in K; lia|reflexivity].
    + cbv zeta. destruct (Z.ltb_spec (ct_size ct) (zlen b)); [lia|reflexivity].
    + cbn [valueString]. destruct (Z.ltb_spec (ct_size ct) (zlen s)); [lia|reflexivity].
    + rewrite other_text by assumption. destruct (Z.ltb_spec (ct_size ct) (zlen (str "<" ++ type_text v ++ str " Value>"))); [lia|reflexivity].
Qed.
Theorem stored_exact ct v w : named_type v -> (fieldToValue ct v = Ok w <-> stored ct v w).
Proof.
  intros N. change (fieldToValue ct v) with (if ct_notnull ct then conv ct v else match v with FBytes None => Ok VNull | FPtr _ None => Ok VNull
    | FBytes (Some _) => match ct_type ct with BytesType => conv ct v | _ => Panic end | FPtr _ (Some v') => match ct_type ct with BytesType => conv ct v | _ => conv ct v' end | _ => Panic end).
  destruct (ct_notnull ct) eqn:En.
  - rewrite conv_stored by exact N. split; [now constructor|]. intros H. destruct H as [v w _ H|k E|E|b w E|k v w E]; [exact H|congruence ..].
  - split.
    + destruct v as [b|k i|k p|s0|[b|]|k [u|]|]; try discriminate.
      * destruct (ct_type ct) eqn:Et; try discriminate. intros H. apply conv_stored in H; [|exact N]. rewrite Et in H. now constructor.
      * intros H. injection H as <-. now constructor.
      * assert (Q : ct_type ct <> BytesType -> conv ct u = Ok w -> stored ct (FPtr k (Some u)) w). { intros Nt H. apply conv_stored in H; [now constructor|]. destruct k; exact N || now destruct N. }
        destruct (ct_type ct) eqn:Et; try (apply Q; discriminate). unfold conv. rewrite Et. discriminate.
      * intros H. injection H as <-. now constructor.
    + intros H. destruct H as [v w E H|k E|E|b w E Et H|k v w E Nt H]; [congruence|reflexivity|reflexivity| |].
      * rewrite Et. apply conv_stored; [exact N|]. now rewrite Et.
      * assert (Q : conv ct v = Ok w) by (apply conv_stored; [destruct k; exact N || now destruct N|exact H]). destruct (ct_type ct) eqn:Et; try exact Q. now destruct Nt.
Qed.
