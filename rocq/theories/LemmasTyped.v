(** Structs and rows. *)

From Verif Require Import ModelTyped SpecTyped LemmasBase LemmasKey LemmasValue.

Definition fits_u32 (ct : coltype) : Prop := is_u32 (ct_size ct) /\ ct_type ct <> UnknownType.

Lemma fieldType_u32 tags ft ct : fieldType tags ft = Some ct -> fits_u32 ct.
Proof.
  unfold fieldType, tagSize. cbv zeta. intros H.
  assert (forall z, is_u32 (u32 z)) as Hu by (intros; unfold is_u32, u32; apply Z.mod_pos_bound; lia).
  assert (exists size, is_u32 size /\
    match tag tags (str "size") with
    | None => Some 1
    | Some val => match parse_int val with Some n => if n <=? 0 then None else Some (u32 n) | None => None end
    end = Some size) as (size & Hs & E).
  { destruct (tag tags (str "size")) as [val|]; [|exists 1; split; [unfold is_u32; lia|reflexivity]].
    destruct (parse_int val) as [n|]; [|discriminate]. destruct (n <=? 0); [discriminate|]. eauto. }
  rewrite E in H.
  unfold fits_u32.
  destruct ft as [k|k], k; cbn [int_size] in H; try discriminate; try (destruct (tag tags (str "notnull"))); try discriminate;
    injection H as <-; cbn [ct_size ct_type]; (split; [|discriminate]); try assumption; unfold is_u32; lia.
Qed.

Lemma wrap_id n i : 0 < n -> - 2 ^ (8 * n - 1) <= i < 2 ^ (8 * n - 1) ->
  (i + 2 ^ (8 * n - 1)) mod 2 ^ (8 * n) - 2 ^ (8 * n - 1) = i.
Proof.
  intros Hn Hi. assert (2 ^ (8 * n) = 2 * 2 ^ (8 * n - 1)) as E.
  { replace (8 * n) with (1 + (8 * n - 1)) at 1 by lia. rewrite Z.pow_add_r by lia. reflexivity. }
  rewrite Z.mod_small by lia. lia.
Qed.

Lemma wrapInt_id k i : in_kind k i -> wrapInt k i = i.
Proof.
  unfold wrapInt. intros H. destruct k; try contradiction; cbn [int_size];
    apply wrap_id; try lia; exact H.
Qed.

Lemma in_kind_i64 k i : in_kind k i -> is_i64 i.
Proof. unfold is_i64. destruct k; cbn; intros; try contradiction; lia. Qed.

Section Typed.
  Context {F : Float32Lib}.
  Context (HF : Float32Lib_ok F).

  Lemma round32_id p q : is_u64 q -> p = x_round32 q -> x_round32 p = p.
  Proof. intros H ->. now apply HF. Qed.

  (** One field. *)
  Lemma field_fits tags ft ct v :
    fieldType tags ft = Some ct -> has_type ft v -> text_fits (ct_size ct) v ->
    exists y, fieldToValue ct v = Ok y /\ admits ct y /\ wf_value y /\
      (readable ft -> exists v', valueToField ct ft y = Ok v' /\ same_field ct v v').
  Proof.
    intros HT Hv Hf. pose proof (fieldType_u32 _ _ _ HT) as [Hu _]. unfold is_u32 in Hu. unfold fieldType in HT; cbv zeta in HT.
    destruct (tagSize tags) as [size|]; [|discriminate].
    destruct ft as [k|k]; cbn [has_type] in Hv.
    - destruct v as [b|k' i|k' p|s|o|k' o|]; cbn [of_kind] in Hv; try contradiction.
      + subst k. destruct (tag _ _); [discriminate|]. injection HT as <-. cbn.
        eexists. split; [reflexivity|]. split; [reflexivity|]. split; [exact I|]. intros _. eexists. split; [reflexivity|]. left. reflexivity.
      + destruct Hv as [-> Hi]. pose proof (wrapInt_id k i Hi) as HW. pose proof (in_kind_i64 k i Hi) as H64.
        assert (fieldType tags (FTBase k) = Some ct -> True) as _ by auto.
        destruct k; try contradiction Hi; cbn [int_size] in HT; (destruct (tag _ _); [discriminate|]); injection HT as <-; cbn [ct_type ct_size ct_notnull fieldToValue negb];
          (eexists; split; [reflexivity|]; split; [cbn [admits ct_type ct_size]; split; [reflexivity|]; cbn [in_kind] in Hi; split; intros; lia|];
           split; [exact H64|]; intros _; cbn [valueToField ct_type ct_notnull int_size]; rewrite HW; eexists; split; [reflexivity|]; left; reflexivity).
      + destruct Hv as (-> & Hp & Hk).
        assert (valueToField {| ct_type := Float64Type; ct_size := 8; ct_fixed := false; ct_notnull := true |} (FTBase k) (VFloat p) = Ok (FFloat k p)) as HV.
        { destruct Hk as [-> | (-> & q & Hq & E)]; cbn; [reflexivity|]. now rewrite (round32_id p q Hq E). }
        destruct Hk as [-> | (-> & q & Hq & E)]; (destruct (tag _ _); [discriminate|]); injection HT as <-; cbn [negb] in *;
          (eexists; split; [reflexivity|]; split; [reflexivity|]; split; [exact Hp|]; intros _; eexists; split; [exact HV|]; left; reflexivity).
      + subst k. destruct (tag _ _); [discriminate|]. injection HT as <-. cbn in *.
        destruct (Z.ltb_spec size (zlen s)); [lia|]. eexists. split; [reflexivity|]. split; [split; [reflexivity|cbn; lia]|]. split; [exact I|].
        intros _. eexists. split; [reflexivity|]. left. reflexivity.
      + subst k. injection HT as <-. cbn [ct_size] in *. unfold fieldToValue. cbn [ct_notnull ct_type ct_size].
        destruct (tag _ _) as [tg|] eqn:Et.
        * destruct o as [b|]; cbn [text_fits] in Hf.
          -- destruct (Z.ltb_spec size (zlen b)); [lia|]. eexists. split; [reflexivity|]. split; [split; [reflexivity|cbn; lia]|]. split; [exact I|].
             intros _. eexists. split; [reflexivity|]. left. reflexivity.
          -- destruct (Z.ltb_spec size (zlen (@nil byte))) as [H|H]; [unfold zlen in H; cbn in H; lia|]. eexists. split; [reflexivity|].
             split; [split; [reflexivity|unfold zlen; cbn; lia]|]. split; [exact I|].
             intros _. eexists. split; [reflexivity|]. right. auto.
        * destruct o as [b|]; cbn [text_fits] in Hf.
          -- destruct (Z.ltb_spec size (zlen b)); [lia|]. eexists. split; [reflexivity|]. split; [split; [reflexivity|cbn; lia]|]. split; [exact I|].
             intros _. eexists. split; [reflexivity|]. left. reflexivity.
          -- eexists. split; [reflexivity|]. split; [reflexivity|]. split; [exact I|].
             intros _. eexists. split; [reflexivity|]. left. reflexivity.
    - destruct Hv as (o & -> & Ho). destruct o as [v|].
      2:{ assert (ct_notnull ct = false) as Hn.
          { destruct k; try discriminate; (destruct (tag _ _); [discriminate|]); injection HT as <-; reflexivity. }
          unfold fieldToValue. rewrite Hn. exists VNull. split; [reflexivity|]. split; [exact Hn|]. split; [exact I|].
          intros _. unfold valueToField. rewrite Hn. eexists. split; [reflexivity|]. left. reflexivity. }
      specialize (Ho v eq_refl).
      destruct v as [b|k' i|k' p|s|o|k' o|]; cbn [of_kind] in Ho; try contradiction.
      + subst k. destruct (tag _ _); [discriminate|]. injection HT as <-. cbn.
        eexists. split; [reflexivity|]. split; [reflexivity|]. split; [exact I|]. intros _. eexists. split; [reflexivity|]. left. reflexivity.
      + destruct Ho as [-> Hi]. pose proof (in_kind_i64 k i Hi) as H64.
        destruct k; try contradiction Hi; cbn [int_size] in HT; (destruct (tag _ _); [discriminate|]); injection HT as <-; cbn [ct_type ct_size ct_notnull fieldToValue negb];
          (eexists; split; [reflexivity|]; split; [cbn [admits ct_type ct_size]; split; [reflexivity|]; cbn [in_kind] in Hi; split; intros; lia|];
           split; [exact H64|]; cbn [readable]; intros R; first [exfalso; destruct R as [R|[R|[R|R]]]; discriminate|eexists; split; [reflexivity|left; reflexivity]]).
      + destruct Ho as (-> & Hp & Hk).
        destruct Hk as [-> | (-> & q & Hq & E)]; (destruct (tag _ _); [discriminate|]); injection HT as <-; cbn [negb] in *;
          (eexists; split; [reflexivity|]; split; [reflexivity|]; split; [exact Hp|]; cbn [readable]; intros R; first [exfalso; destruct R as [R|[R|[R|R]]]; discriminate|eexists; split; [reflexivity|left; reflexivity]]).
      + subst k. destruct (tag _ _); [discriminate|]. injection HT as <-. cbn in *.
        destruct (Z.ltb_spec size (zlen s)); [lia|]. eexists. split; [reflexivity|]. split; [split; [reflexivity|cbn; lia]|]. split; [exact I|].
        intros _. eexists. split; [reflexivity|]. left. reflexivity.
      + subst k. discriminate.
  Qed.

  Lemma field_long tags ft ct v :
    fieldType tags ft = Some ct -> has_type ft v -> ~ text_fits (ct_size ct) v -> fieldToValue ct v = Panic.
  Proof.
    intros HT Hv Hf. unfold fieldType in HT; cbv zeta in HT.
    destruct (tagSize tags) as [size|]; [|discriminate].
    destruct ft as [k|k]; cbn [has_type] in Hv.
    - destruct v as [b|k' i|k' p|s|o|k' o|]; cbn [of_kind text_fits] in *; try contradiction; try (now contradiction Hf).
      + subst k. destruct (tag _ _); [discriminate|]. injection HT as <-. cbn in *.
        destruct (Z.ltb_spec size (zlen s)); [reflexivity|lia].
      + subst k. injection HT as <-. destruct o as [b|]; [|now contradiction Hf]. unfold fieldToValue. cbn in *.
        destruct (Z.ltb_spec size (zlen b)); [|lia]. destruct (tag _ _); reflexivity.
    - destruct Hv as (o & -> & Ho). destruct o as [v|]; [|now contradiction Hf]. specialize (Ho v eq_refl).
      destruct v as [b|k' i|k' p|s|o|k' o|]; cbn [of_kind text_fits] in *; try contradiction; try (now contradiction Hf).
      subst k. destruct (tag _ _); [discriminate|]. injection HT as <-. cbn in *.
      destruct (Z.ltb_spec size (zlen s)); [reflexivity|lia].
  Qed.

  (** A pointer that cannot be read back. *)
  Lemma field_unreadable tags ft ct v y :
    fieldType tags ft = Some ct -> has_type ft v -> ~ readable ft -> (forall k, v <> FPtr k None) ->
    fieldToValue ct v = Ok y -> valueToField ct ft y = Panic.
  Proof.
    intros HT Hv Hr Hn Hf. destruct ft as [k|k]; [now contradiction Hr|]. destruct Hv as (o & -> & Ho).
    destruct o as [v|]; [|now contradiction (Hn k)]. specialize (Ho v eq_refl). unfold fieldType in HT; cbv zeta in HT.
    destruct (tagSize tags) as [size|]; [|discriminate]. cbn [readable] in Hr.
    destruct k; try (contradiction Hr; tauto); try discriminate; (destruct (tag _ _); [discriminate|]); injection HT as <-;
      destruct v; cbn in Hf; try discriminate; injection Hf as <-; reflexivity.
  Qed.
End Typed.

Section Exec.
  Context {X : FloatLib} {L : CaseLib} {G : GobLib}.

  Lemma exec_pthen {A B} x (p : prog A) (k : res A -> prog B) : forall w,
    exec w x (pthen p k) =
    let '(r, w1, h1) := exec w x p in let '(r2, w2, h2) := exec w1 x (k r) in (r2, w2, h1 ++ h2).
  Proof.
    induction p as [r|c f IH|s q f IH|i f IH]; intros w; cbn [pthen exec].
    - destruct (exec w x (k r)) as [[r2 w2] h2]. reflexivity.
    - destruct (step w (Call x c)) as [out w1]. rewrite IH.
      destruct (exec w1 x (f out (fst (made w1 x c)) (snd (made w1 x c)))) as [[r w2] h1].
      destruct (exec w2 x (k r)) as [[r2 w3] h2]. reflexivity.
    - destruct (step w (Intern s q)) as [out w1]. rewrite IH.
      destruct (exec w1 x (f _)) as [[r w2] h1]. destruct (exec w2 x (k r)) as [[r2 w3] h2]. reflexivity.
    - apply IH.
  Qed.

  Lemma exec_pbind {A B} x (p : prog A) (k : A -> prog B) w :
    exec w x (pbind p k) =
    match exec w x p with
    | (Ok a, w1, h1) => let '(r2, w2, h2) := exec w1 x (k a) in (r2, w2, h1 ++ h2)
    | (Err e, w1, h1) => (Err e, w1, h1)
    | (Panic, w1, h1) => (Panic, w1, h1)
    end.
  Proof.
    unfold pbind. rewrite exec_pthen. destruct (exec w x p) as [[[a|e|] w1] h1]; cbn [exec].
    - reflexivity.
    - now rewrite app_nil_r.
    - now rewrite app_nil_r.
  Qed.

  Lemma exec_pbind_ok {A B} x (p : prog A) (k : A -> prog B) w b w' h :
    exec w x (pbind p k) = (Ok b, w', h) ->
    exists a w1 h1 h2, exec w x p = (Ok a, w1, h1) /\ exec w1 x (k a) = (Ok b, w', h2) /\ h = h1 ++ h2.
  Proof.
    rewrite exec_pbind. destruct (exec w x p) as [[[a|e|] w1] h1]; try discriminate.
    destruct (exec w1 x (k a)) as [[r2 w2] h2] eqn:E. intros [= -> -> <-]. exists a, w1, h1, h2. auto.
  Qed.

  (** What was done is a run. *)
  Lemma exec_run {A} x (p : prog A) : forall w r w' h,
    exec w x p = (r, w', h) -> run w (map fst h) = (map snd h, w').
  Proof.
    induction p as [r0|c f IH|s q f IH|i f IH]; intros w r w' h E; cbn [exec] in E.
    - injection E as <- <- <-. reflexivity.
    - destruct (step w (Call x c)) as [out w1] eqn:E1. destruct (exec w1 x _) as [[r1 w2] h1] eqn:E2.
      injection E as <- <- <-. cbn [map fst snd run]. rewrite E1. now rewrite (IH _ _ _ _ _ _ _ E2).
    - destruct (step w (Intern s q)) as [out w1] eqn:E1. destruct (exec w1 x _) as [[r1 w2] h1] eqn:E2.
      injection E as <- <- <-. cbn [map fst snd run]. rewrite E1. now rewrite (IH _ _ _ _ _ E2).
    - eapply IH. exact E.
  Qed.

  (** The columns of a typed info. *)
  Definition column_of (fd : field) (ct : coltype) : Prop :=
    exists tags, fieldTags (fd_tag fd) = Some tags /\ fieldType tags (fd_type fd) = Some ct.

  Definition is_primary (fd : field) : bool :=
    match fieldTags (fd_tag fd) with
    | Some tags => match tag tags (str "primary") with Some _ => true | None => false end
    | None => false
    end.
  Fixpoint primaries (idx : Z) (flds : list field) : list Z :=
    match flds with
    | [] => []
    | fd :: flds' =>
        if is_primary fd then MakeColumnKey (u32 idx) false :: primaries (idx + 1) flds' else primaries (idx + 1) flds'
    end.

  Lemma typedInfoLoop_inv {U : RuneLib} x flds : forall idx w ids cts key w' h,
    exec w x (typedInfoLoop idx flds) = (Ok (ids, cts, key), w', h) ->
    Forall2 column_of flds cts /\ length ids = length flds /\ key = primaries idx flds.
  Proof.
    induction flds as [|fd flds IH]; intros idx w ids cts key w' h E; cbn [typedInfoLoop] in E.
    - injection E as <- <- <- _ _. split; [constructor|split; reflexivity].
    - destruct (fieldTags (fd_tag fd)) as [tags|] eqn:Et; [|discriminate].
      destruct (match tag tags (str "name") with Some n => Some n | None => columnName (fd_name fd) end) as [name|]; [|discriminate].
      apply exec_pbind_ok in E as (id & w1 & h1 & h2 & E1 & E & _).
      destruct (fieldType tags (fd_type fd)) as [ct|] eqn:Ec; [|discriminate].
      apply exec_pbind_ok in E as ([[ids1 cts1] key1] & w2 & h3 & h4 & E2 & E & _).
      injection E as <- <- Ek _ _. destruct (IH _ _ _ _ _ _ _ E2) as (A1 & A2 & A3). split; [|split].
      + constructor; [exists tags; auto|exact A1].
      + simpl. congruence.
      + rewrite <- Ek. cbn [primaries]. unfold is_primary. rewrite Et, A3. destruct (tag tags (str "primary")); reflexivity.
  Qed.
End Exec.

(** The parts of a typed info. *)
Record info_ok (ti : typedinfo) (st : stype) : Prop := {
  io_typ : ti_typ ti = st;
  io_types : Forall2 column_of (st_fields st) (ti_types ti);
  io_cols : length (ti_cols ti) = length (st_fields st);
  io_key : ti_primary ti = primaries 0 (st_fields st);
  io_flds : ti_flds ti = map fd_name (st_fields st)
}.

Lemma made_info ti st : made_for ti st -> info_ok ti st.
Proof.
  intros (U & X & L & G & w & x & tid & tn & w' & h & E). unfold MakeTypedInfo in E.
  apply exec_pbind_ok in E as ([[ids cts] key] & w1 & h1 & h2 & E1 & E & _).
  injection E as <- _ _. apply typedInfoLoop_inv in E1 as (A1 & A2 & A3). constructor; auto.
Qed.

Section Struct.
  Context {F : Float32Lib}.
  Context (HF : Float32Lib_ok F).

  Definition fields_fit (cts : list coltype) (vs : list fval) : Prop := Forall2 (fun ct v => text_fits (ct_size ct) v) cts vs.

  Lemma fields_row flds cts vs :
    Forall2 column_of flds cts -> Forall2 (fun fd v => has_type (fd_type fd) v) flds vs -> fields_fit cts vs ->
    exists r, fieldsToRow cts vs = Ok r /\ Forall2 admits cts r /\ Forall wf_value r /\
      (Forall (fun fd => readable (fd_type fd)) flds ->
         exists vs', rowToFields cts flds r = Ok vs' /\ length vs' = length vs /\
           forall i ct v v', nth_error cts i = Some ct -> nth_error vs i = Some v -> nth_error vs' i = Some v' -> same_field ct v v').
  Proof.
    intros Hc. revert vs. induction Hc as [|fd ct flds cts (tags & _ & Hc) HC IH]; intros vs Hv Hf.
    - inversion Hv; subst. exists []. split; [reflexivity|]. split; [constructor|]. split; [constructor|]. intros _.
      exists []. split; [reflexivity|]. split; [reflexivity|]. intros [|i]; discriminate.
    - inversion Hv as [|? v ? vs1 Hv1 Hv2]; subst. inversion Hf as [|? ? ? ? Hf1 Hf2]; subst.
      destruct (field_fits HF tags (fd_type fd) ct v Hc Hv1 Hf1) as (y & E1 & E2 & E3 & E4).
      destruct (IH vs1 Hv2 Hf2) as (r & R1 & R2 & R3 & R4). exists (y :: r). cbn [fieldsToRow]. rewrite E1. cbn [rbind]. rewrite R1.
      split; [reflexivity|]. split; [constructor; assumption|]. split; [constructor; assumption|]. intros Hr.
      inversion Hr as [|? ? Hr1 Hr2]; subst. destruct (E4 Hr1) as (v' & V1 & V2). destruct (R4 Hr2) as (vs' & S1 & S2 & S3).
      exists (v' :: vs'). cbn [rowToFields]. rewrite V1. cbn [rbind]. rewrite S1. split; [reflexivity|]. split; [simpl; congruence|].
      intros [|i] ct0 v0 v0'; cbn [nth_error].
      + intros [= <-] [= <-] [= <-]. exact V2.
      + apply S3.
  Qed.

  Lemma fields_long flds cts vs :
    Forall2 column_of flds cts -> Forall2 (fun fd v => has_type (fd_type fd) v) flds vs ->
    ~ fields_fit cts vs -> fieldsToRow cts vs = Panic.
  Proof.
    intros Hc. revert vs. induction Hc as [|fd ct flds cts (tags & _ & Hc) HC IH]; intros vs Hv Hf.
    - inversion Hv; subst. contradiction Hf. constructor.
    - inversion Hv as [|? v ? vs1 Hv1 Hv2]; subst. cbn [fieldsToRow].
      assert (text_fits (ct_size ct) v \/ ~ text_fits (ct_size ct) v) as [D|D].
      { destruct v as [b|k i|k p|s|[s|]|k [[ | | |s| | | ]|]|]; cbn [text_fits]; auto;
          match goal with |- zlen ?s <= ?n \/ _ => destruct (Z_le_gt_dec (zlen s) n); [left; assumption|right; lia] end. }
      + destruct (field_fits HF tags (fd_type fd) ct v Hc Hv1 D) as (y & -> & _). cbn [rbind].
        rewrite IH; [reflexivity|exact Hv2|]. intros H. apply Hf. constructor; assumption.
      + rewrite (field_long tags (fd_type fd) ct v Hc Hv1 D). reflexivity.
  Qed.

  Lemma Forall2_nth {A B} (P : A -> B -> Prop) l1 l2 : Forall2 P l1 l2 <->
    length l1 = length l2 /\ forall i a b, nth_error l1 i = Some a -> nth_error l2 i = Some b -> P a b.
  Proof.
    split.
    - induction 1 as [|a b l1 l2 H H' [IH1 IH2]]; [split; [reflexivity|intros [|i]; discriminate]|].
      split; [simpl; congruence|]. intros [|i] a0 b0; cbn [nth_error]; [intros [= <-] [= <-]; exact H|apply IH2].
    - revert l2. induction l1 as [|a l1 IH]; intros [|b l2] [H1 H2]; try discriminate; constructor.
      + apply (H2 0%nat); reflexivity.
      + apply IH. split; [now injection H1|]. intros i. apply (H2 (S i)).
  Qed.

  (** A struct of the type and its row. *)
  Definition struct_fits (ti : typedinfo) (g : gostruct) : Prop := fields_fit (ti_types ti) (gs_fields g).

  Lemma struct_row ti st g :
    info_ok ti st -> of_struct st g -> struct_fits ti g ->
    exists r, structToRow ti (Some g) = Ok (Some r) /\ Forall2 admits (ti_types ti) r /\ Forall wf_value r /\
      (Forall (fun fd => readable (fd_type fd)) (st_fields st) -> forall g0, gs_type g0 = st_name st ->
         exists g', RowToStruct ti r g0 = Ok g' /\ gs_type g' = gs_type g /\ length (gs_fields g') = length (gs_fields g) /\
           forall i ct v v', nth_error (ti_types ti) i = Some ct -> nth_error (gs_fields g) i = Some v ->
             nth_error (gs_fields g') i = Some v' -> same_field ct v v').
  Proof.
    intros I [Hn Hg] Hf. destruct (fields_row (st_fields st) (ti_types ti) (gs_fields g) (io_types _ _ I) Hg Hf) as (r & R1 & R2 & R3 & R4).
    exists r. unfold structToRow. rewrite (io_typ _ _ I), Hn, (proj2 (bytes_eqb_eq _ _) eq_refl), R1. cbn [rbind].
    split; [reflexivity|]. split; [exact R2|]. split; [exact R3|]. intros Hr g0 H0. destruct (R4 Hr) as (vs' & S1 & S2 & S3).
    unfold RowToStruct. rewrite (io_typ _ _ I), H0, (proj2 (bytes_eqb_eq _ _) eq_refl), S1. cbn [rbind].
    eexists. split; [reflexivity|]. cbn [gs_type gs_fields]. split; [reflexivity|]. split; [exact S2|exact S3].
  Qed.

  Lemma struct_long ti st g :
    info_ok ti st -> of_struct st g -> ~ struct_fits ti g -> structToRow ti (Some g) = Panic.
  Proof.
    intros I [Hn Hg] Hf. unfold structToRow. rewrite (io_typ _ _ I), Hn, (proj2 (bytes_eqb_eq _ _) eq_refl).
    rewrite (fields_long (st_fields st) (ti_types ti) (gs_fields g) (io_types _ _ I) Hg Hf). reflexivity.
  Qed.

  Lemma admits_converts {X : FloatLib} cts r : Forall fits_u32 cts -> Forall2 admits cts r -> ConvertRow cts r = Ok r.
  Proof.
    intros Hu Ha. apply convert_row_lemma. apply Forall2_nth in Ha as [Hl Ha]. split; [lia|]. split; [lia|]. split.
    - intros i ct v H1 H2. exists v. split; [exact H2|]. apply convert_accepts_lemma; [|eapply Ha; eassumption].
      exact (proj1 (proj1 (Forall_forall _ _) Hu ct (nth_error_In _ _ H1))).
    - intros i Hi. lia.
  Qed.

  Lemma info_u32 ti st : info_ok ti st -> Forall fits_u32 (ti_types ti).
  Proof.
    intros I. pose proof (io_types _ _ I) as H. clear I. induction H as [|fd ct flds cts (tags & _ & H) H' IH]; constructor; auto.
    eapply fieldType_u32; eassumption.
  Qed.

  Lemma row_unreadable flds cts vs r i fd k v :
    Forall2 column_of flds cts -> Forall2 (fun fd v => has_type (fd_type fd) v) flds vs -> fieldsToRow cts vs = Ok r ->
    nth_error flds i = Some fd -> ~ readable (fd_type fd) -> nth_error vs i = Some (FPtr k (Some v)) ->
    rowToFields cts flds r = Panic.
  Proof.
    intros Hc. revert vs r i. induction Hc as [|fd1 ct flds cts (tags & _ & Hc) HC IH]; intros vs r i Hv E Hi Hr Hn; [destruct i; discriminate|].
    inversion Hv as [|? v1 ? vs1 Hv1 Hv2]; subst. cbn [fieldsToRow] in E.
    destruct (fieldToValue ct v1) as [y| |] eqn:Ey; try discriminate. cbn [rbind] in E.
    destruct (fieldsToRow cts vs1) as [r1| |] eqn:Er; try discriminate. injection E as <-. cbn [rowToFields].
    destruct i as [|i]; cbn [nth_error] in Hi, Hn.
    - injection Hi as <-. injection Hn as ->. rewrite (field_unreadable tags (fd_type fd1) ct _ y Hc Hv1 Hr ltac:(discriminate) Ey). reflexivity.
    - rewrite (IH vs1 r1 i Hv2 Er Hi Hr Hn).
      destruct (valueToField ct (fd_type fd1) y) as [y'|e|] eqn:Ev; cbn [rbind]; try reflexivity.
      exfalso. clear - Ev. unfold valueToField in Ev.
      repeat match type of Ev with context [match ?c with _ => _ end] => destruct c; try discriminate end.
  Qed.
End Struct.
