(** The columns made for a struct are those its fields and tags describe. *)

From Verif Require Import ModelTyped SpecInfo LemmasBase LemmasFloat LemmasValue LemmasCast LemmasEngineCalls LemmasEngineInit.
From Coq Require Import ZifyBool ZifyNat.

(** ** UTF-8 *)

Lemma encode_char c w : code_point c -> (utf8_char c w <-> w = utf8_encode c).
Proof.
  intros [Hc Hs]. unfold utf8_encode.
  replace ((c <? 0) || (1114111 <? c) || ((55296 <=? c) && (c <=? 57343))) with false by lia.
  destruct (Z.ltb_spec c 128); [|destruct (Z.ltb_spec c 2048); [|destruct (Z.ltb_spec c 65536)]].
  - split; [intros H1; inversion H1; subst; try reflexivity; lia|intros ->; apply u8_1; lia].
  - split; [intros H1; inversion H1; subst; try reflexivity; lia|intros ->; apply u8_2; lia].
  - split; [intros H2; inversion H2; subst; try reflexivity; lia|intros ->; apply u8_3; lia].
  - split; [intros H2; inversion H2; subst; try reflexivity; lia|intros ->; apply u8_4; lia].
Qed.

Lemma encode_other c : ~ code_point c -> utf8_char 65533 (utf8_encode c).
Proof.
  unfold code_point. intros H. unfold utf8_encode.
  replace ((c <? 0) || (1114111 <? c) || ((55296 <=? c) && (c <=? 57343))) with true by lia.
  apply (u8_3 65533); lia.
Qed.

(** ** Splitting *)

Definition join (sep : byte) (l : list bytes) : bytes :=
  match l with [] => [] | a :: r => a ++ flat_map (fun b => sep :: b) r end.

Lemma split_aux_join sep s cur : join sep (split_aux sep s cur) = rev cur ++ s /\
  (~ In sep cur -> Forall (fun a => ~ In sep a) (split_aux sep s cur)) /\ split_aux sep s cur <> [].
Proof.
  revert cur; induction s as [|b s IH]; intros cur; cbn [split_aux].
  - split; [cbn; now rewrite !app_nil_r|]. split; [|discriminate].
    intros H. constructor; [|constructor]. intros Hi. apply in_rev in Hi. now apply H.
  - destruct (Byte.eqb b sep) eqn:E.
    + apply byte_eqb_eq in E. subst b. destruct (IH []) as (H1 & H2 & H3).
      split; [|split; [|discriminate]].
      * destruct (split_aux sep s []) as [|a r] eqn:Es; [now destruct H3|].
        cbn [join flat_map app] in *. rewrite H1. reflexivity.
      * intros H. constructor; [intros Hi; apply in_rev in Hi; now apply H|]. apply H2. intros [].
    + destruct (IH (b :: cur)) as (H1 & H2 & H3). split; [|split; [|exact H3]].
      * rewrite H1. cbn [rev]. now rewrite <- app_assoc.
      * intros H. apply H2. intros [Hb|Hb]; [|now apply H]. subst b.
        rewrite (proj2 (byte_eqb_eq sep sep) eq_refl) in E. discriminate.
Qed.

Lemma split_aux_over sep a s cur : ~ In sep a ->
  split_aux sep (a ++ s) cur = split_aux sep s (rev a ++ cur).
Proof.
  revert cur; induction a as [|b a IH]; intros cur H; [reflexivity|]. cbn [app split_aux].
  destruct (Byte.eqb b sep) eqn:E.
  - apply byte_eqb_eq in E. subst b. exfalso. apply H. now left.
  - rewrite IH by (intros Hi; apply H; now right). cbn [rev]. now rewrite <- app_assoc.
Qed.

Lemma split_of sep a l : Forall (fun b => ~ In sep b) (a :: l) -> ModelTyped.split sep (join sep (a :: l)) = a :: l.
Proof.
  unfold ModelTyped.split. revert a; induction l as [|b l IH]; intros a H; cbn [join flat_map];
    apply Forall_cons_iff in H; destruct H as [Ha H]; rewrite split_aux_over by exact Ha; rewrite app_nil_r.
  - cbn [split_aux]. now rewrite rev_involutive.
  - cbn [app split_aux]. rewrite (proj2 (byte_eqb_eq sep sep) eq_refl), rev_involutive. f_equal. exact (IH b H).
Qed.

Lemma split_is sep s l : ModelTyped.split sep s = l ->
  l <> [] /\ s = join sep l /\ Forall (fun a => ~ In sep a) l.
Proof.
  unfold ModelTyped.split. intros <-. destruct (split_aux_join sep s []) as (H1 & H2 & H3).
  split; [exact H3|]. split; [now rewrite H1|]. apply H2. intros [].
Qed.

(** ** Tags *)

Definition pair_of (i : item) : bytes * bytes :=
  match i with
  | IName n => (str "name", n)
  | INotNull => (str "notnull", [])
  | IPrimary => (str "primary", [])
  | ISize n => (str "size", n)
  end.

Lemma no_sep b s : existsb (Byte.eqb b) s = false -> ~ In b s.
Proof.
  intros H Hi. assert (existsb (Byte.eqb b) s = true) as E; [|congruence].
  apply existsb_exists. exists b. split; [exact Hi|now apply byte_eqb_eq].
Qed.

Lemma split_item i : item_ok i ->
  ModelTyped.split x3d (item_text i) =
  match i with
  | IName n => [str "name"; n] | ISize n => [str "size"; n]
  | INotNull => [str "notnull"] | IPrimary => [str "primary"]
  end.
Proof.
  intros H. destruct i as [n| | |n]; try (vm_compute; reflexivity).
  - change (item_text (IName n)) with (str "name" ++ x3d :: n).
    replace (str "name" ++ x3d :: n) with (join x3d [str "name"; n]) by (cbn [join flat_map]; now rewrite app_nil_r).
    apply split_of. constructor; [now apply no_sep|]. constructor; [apply H|constructor].
  - change (item_text (ISize n)) with (str "size" ++ x3d :: n).
    replace (str "size" ++ x3d :: n) with (join x3d [str "size"; n]) by (cbn [join flat_map]; now rewrite app_nil_r).
    apply split_of. constructor; [now apply no_sep|]. constructor; [apply H|constructor].
Qed.

(** One item. *)
Lemma item_step fld flds acc r : ~ In x2c fld ->
  fieldTagsLoop (fld :: flds) acc = Some r ->
  exists i, item_ok i /\ fld = item_text i /\ fieldTagsLoop flds (pair_of i :: acc) = Some r.
Proof.
  intros Hc. cbn [fieldTagsLoop]. destruct (ModelTyped.split x3d fld) as [|k kv] eqn:E; [discriminate|].
  apply split_is in E. destruct E as (_ & E & F). apply Forall_cons_iff in F. destruct F as [Fk F].
  unfold validTag.
  destruct (bytes_eqb k (str "name")) eqn:E1;
    [|destruct (bytes_eqb k (str "notnull")) eqn:E2;
      [|destruct (bytes_eqb k (str "primary")) eqn:E3; [|destruct (bytes_eqb k (str "size")) eqn:E4; [|discriminate]]]].
  - apply bytes_eqb_eq in E1. subst k. destruct kv as [|v [|v' kv]]; try discriminate.
    intros H. exists (IName v). apply Forall_cons_iff in F. destruct F as [F _].
    cbn [join flat_map] in E. rewrite app_nil_r in E.
    split; [|split; [exact E|exact H]]. split; [|exact F].
    intros Hi. apply Hc. rewrite E. apply in_or_app. right. now right.
  - apply bytes_eqb_eq in E2. subst k. destruct kv as [|v kv]; try discriminate.
    intros H. exists INotNull. cbn [join flat_map] in E. rewrite app_nil_r in E. now split.
  - apply bytes_eqb_eq in E3. subst k. destruct kv as [|v kv]; try discriminate.
    intros H. exists IPrimary. cbn [join flat_map] in E. rewrite app_nil_r in E. now split.
  - apply bytes_eqb_eq in E4. subst k. destruct kv as [|v [|v' kv]]; try discriminate.
    intros H. exists (ISize v). apply Forall_cons_iff in F. destruct F as [F _].
    cbn [join flat_map] in E. rewrite app_nil_r in E.
    split; [|split; [exact E|exact H]]. split; [|exact F].
    intros Hi. apply Hc. rewrite E. apply in_or_app. right. now right.
Qed.

Lemma item_run i flds acc : item_ok i ->
  fieldTagsLoop (item_text i :: flds) acc = fieldTagsLoop flds (pair_of i :: acc).
Proof. intros H. cbn [fieldTagsLoop]. rewrite split_item by exact H. destruct i; reflexivity. Qed.

Lemma items_run l : Forall item_ok l -> forall acc,
  fieldTagsLoop (map item_text l) acc = Some (rev (map pair_of l) ++ acc).
Proof.
  induction l as [|i l IH]; intros H acc; [reflexivity|]. apply Forall_cons_iff in H. destruct H as [Hi H].
  cbn [map]. rewrite item_run by exact Hi. rewrite IH by exact H. cbn [rev]. now rewrite <- app_assoc.
Qed.

Lemma items_are flds : Forall (fun a => ~ In x2c a) flds -> forall acc r, fieldTagsLoop flds acc = Some r ->
  exists l, Forall item_ok l /\ flds = map item_text l /\ r = rev (map pair_of l) ++ acc.
Proof.
  induction 1 as [|fld flds Hc _ IH]; intros acc r H.
  - injection H as <-. now exists [].
  - apply item_step in H; [|exact Hc]. destruct H as (i & Hi & -> & H).
    apply IH in H. destruct H as (l & Hl & -> & ->). exists (i :: l).
    split; [now constructor|]. split; [reflexivity|]. cbn [map rev]. now rewrite <- app_assoc.
Qed.

Lemma item_no_comma i : item_ok i -> ~ In x2c (item_text i).
Proof.
  intros H. destruct i as [n| | |n]; try (now apply no_sep).
  - intros Hi. apply in_app_or in Hi. destruct Hi as [Hi|Hi]; [apply no_sep in Hi; [exact Hi|reflexivity]|]. exact (proj1 H Hi).
  - intros Hi. apply in_app_or in Hi. destruct Hi as [Hi|Hi]; [apply no_sep in Hi; [exact Hi|reflexivity]|]. exact (proj1 H Hi).
Qed.

Lemma join_items i l :
  item_text i ++ flat_map (fun j => x2c :: item_text j) l = join x2c (map item_text (i :: l)).
Proof. cbn [map join]. f_equal. induction l as [|j l IH]; [reflexivity|]. cbn. now rewrite IH. Qed.

Lemma fieldTags_spec s r :
  fieldTags s = Some r <-> exists l, tag_text s l /\ r = rev (map pair_of l).
Proof.
  split.
  - unfold fieldTags. destruct s as [|b s].
    + intros [= <-]. exists []. split; [constructor|reflexivity].
    + intros H. destruct (split_is x2c (b :: s) _ eq_refl) as (H1 & H2 & H3).
      apply items_are in H; [|exact H3]. destruct H as (l & Hl & E & ->).
      rewrite app_nil_r. exists l. split; [|reflexivity].
      destruct l as [|i l]; [now rewrite E in H1|].
      rewrite H2, E, <- join_items. now constructor.
  - intros (l & H & ->). destruct H as [|i l H]; [reflexivity|].
    unfold fieldTags. rewrite join_items.
    destruct (join x2c (map item_text (i :: l))) as [|b s] eqn:E.
    { exfalso. cbn [map join] in E. apply app_eq_nil in E. destruct E as [E _]. destruct i; discriminate. }
    rewrite <- E. cbn [map]. rewrite split_of.
    + change (item_text i :: map item_text l) with (map item_text (i :: l)).
      rewrite items_run by exact H. now rewrite app_nil_r.
    + change (item_text i :: map item_text l) with (map item_text (i :: l)).
      apply Forall_forall. intros a Ha. apply in_map_iff in Ha. destruct Ha as (j & <- & Hj).
      apply item_no_comma. now apply (proj1 (Forall_forall _ _) H).
Qed.

(** Looking up. *)
Lemma tag_app a b k : tag (a ++ b) k = match tag a k with Some v => Some v | None => tag b k end.
Proof.
  induction a as [|[k' v] a IH]; [reflexivity|]. cbn [app tag]. now destruct (bytes_eqb k' k).
Qed.

Lemma tag_last f k :
  (forall i, tag [pair_of i] k = f i) -> forall l, tag (rev (map pair_of l)) k = last_of f l.
Proof.
  intros Hf l. unfold last_of. rewrite <- fold_left_rev_right. rewrite <- map_rev.
  induction (rev l) as [|i r IH]; [reflexivity|]. cbn [map fold_right].
  change (pair_of i :: map pair_of r) with ([pair_of i] ++ map pair_of r).
  rewrite tag_app, Hf, IH. reflexivity.
Qed.

Lemma tag_name l : tag (rev (map pair_of l)) (str "name") = last_of name_item l.
Proof. apply tag_last. now intros []. Qed.
Lemma tag_size l : tag (rev (map pair_of l)) (str "size") = last_of size_item l.
Proof. apply tag_last. now intros []. Qed.

Lemma tag_in k x : (forall i, tag [pair_of i] k <> None <-> i = x) -> forall l,
  tag (rev (map pair_of l)) k <> None <-> In x l.
Proof.
  intros Hf l. rewrite <- map_rev. rewrite (in_rev l). induction (rev l) as [|i r IH]; [cbn; tauto|].
  cbn [map In]. change (pair_of i :: map pair_of r) with ([pair_of i] ++ map pair_of r).
  rewrite tag_app, <- IH, <- Hf. destruct (tag [pair_of i] k); [|tauto].
  split; [intros _; left; discriminate|discriminate].
Qed.

Lemma tag_notnull l : tag (rev (map pair_of l)) (str "notnull") <> None <-> In INotNull l.
Proof. apply tag_in. intros []; cbn; split; congruence. Qed.
Lemma tag_primary l : tag (rev (map pair_of l)) (str "primary") <> None <-> In IPrimary l.
Proof. apply tag_in. intros []; cbn; split; congruence. Qed.

(** ** Types *)

Lemma tagSize_spec l n : tagSize (rev (map pair_of l)) = Some n <-> sized l n.
Proof.
  unfold tagSize. rewrite tag_size. split.
  - destruct (last_of size_item l) as [t|] eqn:E.
    + destruct (parse_int t) as [m|] eqn:P; [|discriminate]. apply parse_int_spec in P. destruct P as [P1 P2].
      destruct (Z.leb_spec m 0); [discriminate|]. intros [= <-]. now apply (sz_tag l t m).
    + intros [= <-]. now constructor.
  - intros H. destruct H as [l E|l t n E H1 H2 H3]; rewrite E; [reflexivity|].
    rewrite (proj2 (parse_int_spec t n)) by now split. destruct (Z.leb_spec n 0); [lia|reflexivity].
Qed.

Lemma fieldType_spec l ft ct : fieldType (rev (map pair_of l)) ft = Some ct <-> column_typed l ft ct.
Proof.
  unfold fieldType. pose proof (tag_notnull l) as Hn.
  destruct (tagSize (rev (map pair_of l))) as [size|] eqn:Es.
  - pose proof (proj1 (tagSize_spec l size) Es) as Hs.
    assert (forall n, sized l n -> n = size) as Hu.
    { intros n H. apply tagSize_spec in H. congruence. }
    split.
    + destruct (tag (rev (map pair_of l)) (str "notnull")) eqn:En.
      * assert (In INotNull l) as Hi by (apply Hn; discriminate).
        destruct ft as [k|k]; destruct k; try discriminate. intros [= <-].
        constructor; [exact Hs|tauto].
      * assert (~ In INotNull l) as Hi by (intros Hx; apply Hn in Hx; congruence).
        destruct ft as [k|k]; destruct k; try discriminate; intros [= <-];
          try (now apply (ctd_value l size); [..|constructor]);
          try (now apply (ctd_pointer l size); [..|constructor]).
        constructor; [exact Hs|]. split; [discriminate|tauto].
    + intros H. destruct H as [l n nn H1 H2|l n k vt m H1 H2 H3|l n k vt m H1 H2 H3]; apply Hu in H1; subst n.
      * destruct (tag (rev (map pair_of l)) (str "notnull")) eqn:En.
        -- assert (nn = true) as -> by (apply H2, Hn; discriminate). reflexivity.
        -- assert (nn = false) as ->; [|reflexivity]. destruct nn; [|reflexivity].
           exfalso. apply (proj2 Hn); [now apply H2|reflexivity].
      * destruct (tag (rev (map pair_of l)) (str "notnull")) eqn:En; [exfalso; apply H2, Hn; discriminate|].
        destruct H3; reflexivity.
      * destruct (tag (rev (map pair_of l)) (str "notnull")) eqn:En; [exfalso; apply H2, Hn; discriminate|].
        destruct H3; reflexivity.
  - split; [discriminate|].
    intros H. destruct H as [l n nn H1 H2|l n k vt m H1 H2 H3|l n k vt m H1 H2 H3]; apply tagSize_spec in H1; congruence.
Qed.

(** ** Names *)

Section Names.
  Context {U : RuneLib}.

  Lemma columnNameLoop_spec n : Forall code_point n -> (forall r, code_point r -> code_point (x_rune_lower r)) ->
    forall u buf, exists s, columnNameLoop n u buf = buf ++ s /\ forall s', snake u n s' <-> s' = s.
  Proof.
    intros Hn HL. induction Hn as [|r n Hr Hn IH]; intros u buf.
    - exists []. split; [cbn; now rewrite app_nil_r|]. intros s'. split; [now inversion 1|intros ->; constructor].
    - cbn [columnNameLoop]. destruct (x_is_upper r) eqn:Er.
      + destruct (IH true ((if u then buf else buf ++ utf8_encode 95) ++ utf8_encode (x_rune_lower r))) as (s & E & Hs).
        exists ((if u then [] else str "_") ++ utf8_encode (x_rune_lower r) ++ s). split.
        * rewrite E. destruct u; cbn [app]; now rewrite <- !app_assoc.
        * intros s'. split.
          -- intros H. inversion H as [|u' r' w n' t H1 H2 H3|r' w n' t H1 H2 H3|r' w n' t H1 H2 H3]; subst; try congruence.
             ++ apply Hs in H3. apply encode_char in H2; [|now apply HL]. now subst.
             ++ apply Hs in H3. apply encode_char in H2; [|now apply HL]. now subst.
          -- intros ->. destruct u; [apply (sn_capital r (utf8_encode (x_rune_lower r)) n s)|apply sn_break]; try assumption;
               try (apply encode_char; [now apply HL|reflexivity]); now apply Hs.
      + destruct (IH false (buf ++ utf8_encode r)) as (s & E & Hs).
        exists (utf8_encode r ++ s). split; [now rewrite E, <- app_assoc|].
        intros s'. split.
        * intros H. inversion H as [|u' r' w n' t H1 H2 H3|r' w n' t H1 H2 H3|r' w n' t H1 H2 H3]; subst; try congruence.
          apply Hs in H3. apply encode_char in H2; [|exact Hr]. now subst.
        * intros ->. apply sn_small; [exact Er|now apply encode_char|now apply Hs].
  Qed.

  Lemma columnName_spec l n s : Forall code_point n -> (forall r, code_point r -> code_point (x_rune_lower r)) ->
    (match last_of name_item l with Some n => Some n | None => columnName n end = Some s <-> column_named l n s).
  Proof.
    intros Hn HL. destruct (last_of name_item l) as [t|] eqn:E.
    - split; [intros [= <-]; now constructor|]. intros H. destruct H; congruence.
    - unfold columnName. split.
      + destruct n as [|r n]; [discriminate|]. destruct (x_is_upper r) eqn:Er; [|discriminate]. intros H.
        apply cn_field; try assumption. inversion_clear Hn.
        destruct (columnNameLoop_spec n ltac:(assumption) HL true (utf8_encode (x_rune_lower r))) as (t & E' & Ht).
        rewrite E' in H. injection H as <-. apply sn_capital; [exact Er|apply encode_char; [now apply HL|reflexivity]|now apply Ht].
      + intros H. destruct H as [l n s H|l r n s H1 H2 H3]; [congruence|]. rewrite H2.
        inversion_clear Hn. destruct (columnNameLoop_spec n ltac:(assumption) HL true (utf8_encode (x_rune_lower r))) as (t & -> & Ht).
        inversion H3 as [|u' r' w n' q F1 F2 F3|r' w n' q F1 F2 F3|]; subst; [congruence|].
        apply Ht in F3. apply encode_char in F2; [|now apply HL]. now subst.
  Qed.

  (** ** The loop *)

  Context {L : CaseLib}.

  Lemma tag_text_unique s l l' : tag_text s l -> tag_text s l' -> l = l'.
  Proof.
    intros H H'.
    assert (forall a b, map pair_of a = map pair_of b -> a = b) as Hi.
    { induction a as [|i a IH]; intros [|j b] E; try discriminate; [reflexivity|].
      cbn [map] in E. injection E as E1 E2. f_equal; [|now apply IH].
      destruct i, j; cbn in E1; congruence. }
    assert (fieldTags s = Some (rev (map pair_of l))) as F by (apply fieldTags_spec; now exists l).
    assert (fieldTags s = Some (rev (map pair_of l'))) as F' by (apply fieldTags_spec; now exists l').
    rewrite F in F'. injection F' as F'. apply (f_equal (@rev _)) in F'. rewrite !rev_involutive in F'. now apply Hi.
  Qed.

  (** What the code finds out about one field. *)
  Definition found (f : field) : option (bytes * coltype * bool) :=
    match fieldTags (fd_tag f) with
    | None => None
    | Some tags =>
        match match tag tags (str "name") with Some n => Some n | None => columnName (fd_name f) end with
        | None => None
        | Some name =>
            match fieldType tags (fd_type f) with
            | None => None
            | Some ct => Some (name, ct, match tag tags (str "primary") with Some _ => true | None => false end)
            end
        end
    end.

  Lemma found_spec f c : Forall code_point (fd_name f) -> (forall r, code_point r -> code_point (x_rune_lower r)) ->
    (found f = Some c <-> described f c).
  Proof.
    intros Hn HL. unfold found, described. destruct c as [[name ct] primary]. split.
    - destruct (fieldTags (fd_tag f)) as [tags|] eqn:E; [|discriminate].
      apply fieldTags_spec in E. destruct E as (l & Hl & ->). rewrite tag_name.
      destruct (match last_of name_item l with Some n => Some n | None => columnName (fd_name f) end) as [n|] eqn:En; [|discriminate].
      apply columnName_spec in En; try assumption.
      destruct (fieldType (rev (map pair_of l)) (fd_type f)) as [t|] eqn:Et; [|discriminate].
      apply fieldType_spec in Et. intros [= -> -> <-]. exists l.
      split; [exact Hl|]. split; [exact En|]. split; [exact Et|].
      rewrite <- tag_primary. destruct (tag (rev (map pair_of l)) (str "primary")); split; congruence.
    - intros (l & Hl & H1 & H2 & H3).
      rewrite (proj2 (fieldTags_spec (fd_tag f) (rev (map pair_of l)))) by now exists l.
      rewrite tag_name. rewrite (proj2 (columnName_spec l (fd_name f) name Hn HL) H1).
      rewrite (proj2 (fieldType_spec l (fd_type f) ct) H2). do 2 f_equal.
      rewrite <- tag_primary in H3.
      destruct (tag (rev (map pair_of l)) (str "primary")), primary; try reflexivity.
      + symmetry. apply H3. discriminate.
      + exfalso. now apply (proj1 H3).
  Qed.

  Fixpoint key_from (idx : Z) (cs : list (bytes * coltype * bool)) : list Z :=
    match cs with
    | [] => []
    | (_, true) :: cs' => MakeColumnKey (u32 idx) false :: key_from (idx + 1) cs'
    | (_, false) :: cs' => key_from (idx + 1) cs'
    end.

  Lemma key_marked cs n : Z.of_nat n + zlen cs <= 2 ^ 32 ->
    key_from (Z.of_nat n) cs = keys_of (map (fun n => (n, false)) (marked n cs)).
  Proof.
    revert n; induction cs as [|[c b] cs IH]; intros n H; [reflexivity|].
    unfold zlen in *. cbn [length] in H. cbn [key_from marked].
    replace (Z.of_nat n + 1) with (Z.of_nat (S n)) by lia. rewrite IH by lia. destruct b; [|reflexivity].
    cbn [map]. unfold keys_of at 2. cbn [map fst snd]. f_equal. f_equal. apply Z.mod_small. lia.
  Qed.

  (** The registered identifiers are a function of the names. *)
  Lemma registers_total t ns : exists is t', registers t ns is t'.
  Proof.
    revert t; induction ns as [|n ns IH]; intros t; [exists [], t; constructor|].
    destruct (ID t n true) as [t1 i] eqn:E. destruct (IH t1) as (is & t' & H).
    exists (i :: is), t'. econstructor; eassumption.
  Qed.

  Lemma registers_unique t ns is t' : registers t ns is t' -> forall is2 t2, registers t ns is2 t2 -> is2 = is /\ t2 = t'.
  Proof.
    induction 1 as [|t n ns i is t1 t' E _ IH]; intros is2 t2 H2; inversion H2; subst; [now split|].
    match goal with [ F : ID t n true = _ |- _ ] => rewrite E in F; injection F as <- <- end.
    match goal with [ F : registers t1 ns _ _ |- _ ] => apply IH in F; destruct F as [-> ->] end. now split.
  Qed.

  Lemma loop_ok flds cs : Forall2 (fun f c => found f = Some c) flds cs -> forall idx t is t',
    registers t (map (fun c => fst (fst c)) cs) is t' ->
    qrun t (typedInfoLoop idx flds) = (Ok (is, map (fun c => snd (fst c)) cs, key_from idx cs), t').
  Proof.
    induction 1 as [|f [[name ct] pr] flds cs Hf _ IH]; intros idx t is t' Hr; cbn [map fst snd] in *.
    - inversion Hr; subst. reflexivity.
    - inversion Hr as [|t0 n ns i is' t1 t2 E1 E2]; subst. cbn [typedInfoLoop].
      unfold found in Hf. destruct (fieldTags (fd_tag f)) as [tags|]; [|discriminate].
      destruct (match tag tags (str "name") with Some n => Some n | None => columnName (fd_name f) end) as [n|]; [|discriminate].
      destruct (fieldType tags (fd_type f)) as [c|]; [|discriminate]. injection Hf as -> -> Hp.
      rewrite (qrun_bind (pID name true) _ t i t1) by (unfold pID; cbn [qrun pret]; now rewrite E1).
      rewrite (qrun_bind _ _ t1 _ t' (IH (idx + 1) t1 is' t' E2)). cbn [qrun pret key_from].
      rewrite <- Hp. destruct (tag tags (str "primary")); reflexivity.
  Qed.

  Lemma loop_bad flds : ~ Forall (fun f => found f <> None) flds -> forall idx t,
    fst (qrun t (typedInfoLoop idx flds)) = Panic.
  Proof.
    induction flds as [|f flds IH]; intros H idx t; [exfalso; apply H; constructor|]. cbn [typedInfoLoop].
    destruct (found f) as [c|] eqn:Ef.
    - assert (~ Forall (fun f => found f <> None) flds) as Hf.
      { intros Hf. apply H. constructor; [congruence|exact Hf]. }
      specialize (IH Hf). unfold found in Ef. destruct (fieldTags (fd_tag f)) as [tags|]; [|reflexivity].
      destruct (match tag tags (str "name") with Some n => Some n | None => columnName (fd_name f) end) as [n|]; [|reflexivity].
      destruct (fieldType tags (fd_type f)) as [ct|] eqn:Et; [|discriminate].
      unfold pID, pbind at 1. cbn [pthen qrun pret].
      specialize (IH (idx + 1) (fst (ID t n true))).
      destruct (qrun (fst (ID t n true)) (typedInfoLoop (idx + 1) flds)) as [r t'] eqn:Eq. cbn [fst] in IH. subst r.
      clear - Eq. revert Eq. generalize (fst (ID t n true)) as t0. unfold pbind.
      induction (typedInfoLoop (idx + 1) flds) as [r|c k IH|s q k IH|i k IH]; intros t0 Eq; cbn [qrun pthen] in *.
      + injection Eq as -> ->. reflexivity.
      + reflexivity.
      + apply IH in Eq. exact Eq.
      + apply IH in Eq. exact Eq.
    - unfold found in Ef. destruct (fieldTags (fd_tag f)) as [tags|]; [|reflexivity].
      destruct (match tag tags (str "name") with Some n => Some n | None => columnName (fd_name f) end) as [n|]; [|reflexivity].
      destruct (fieldType tags (fd_type f)) as [ct|] eqn:Et; [discriminate|reflexivity].
  Qed.

  Lemma found_dec f : {found f <> None} + {~ found f <> None}.
  Proof. destruct (found f); [left; discriminate|right; now intros H]. Qed.

  Lemma found_all st : names_ok st ->
    forall cs, Forall2 described (st_fields st) cs <-> Forall2 (fun f c => found f = Some c) (st_fields st) cs.
  Proof.
    intros [H1 H2]. revert H1. induction (st_fields st) as [|f fs IH]; intros H1 cs.
    - split; inversion 1; constructor.
    - specialize (IH (fun g Hg => H1 g (or_intror Hg))).
      split; inversion 1; subst; constructor; try (now apply IH);
        apply (found_spec f _ (H1 f (or_introl eq_refl)) H2); assumption.
  Qed.

  Lemma info_spec t tid tn st ti t' : names_ok st -> zlen (st_fields st) <= 2 ^ 32 ->
    (qrun t (MakeTypedInfo tid tn st) = (Ok ti, t') <->
     exists cs ids, Forall2 described (st_fields st) cs /\
       registers t (map (fun c => fst (fst c)) cs) ids t' /\ ti = info_of st tid tn ids cs).
  Proof.
    intros Hn Hz. pose proof (found_all st Hn) as Hf.
    assert (forall cs ids t', Forall2 described (st_fields st) cs -> registers t (map (fun c => fst (fst c)) cs) ids t' ->
      qrun t (MakeTypedInfo tid tn st) = (Ok (info_of st tid tn ids cs), t')) as Hok.
    { intros cs ids t0 Hd Hr. unfold MakeTypedInfo.
      pose proof Hd as Hc. apply Hf in Hc.
      rewrite (qrun_bind _ _ t _ t0 (loop_ok _ _ Hc 0 t ids t0 Hr)). cbn [qrun pret]. unfold info_of.
      change 0 with (Z.of_nat 0) at 1. rewrite key_marked; [reflexivity|].
      unfold zlen in *. assert (length (st_fields st) = length cs) as <- by (clear - Hd; induction Hd; cbn; congruence). lia. }
    split.
    - intros H. destruct (Forall_dec (fun f => found f <> None) found_dec (st_fields st)) as [Ha|Ha].
      + assert (exists cs, Forall2 (fun f c => found f = Some c) (st_fields st) cs) as [cs Hc].
        { clear - Ha. induction Ha as [|f fs H _ IH]; [exists []; constructor|]. destruct IH as [cs Hc].
          destruct (found f) as [c|] eqn:E; [|now destruct H]. exists (c :: cs). now constructor. }
        apply Hf in Hc. destruct (registers_total t (map (fun c => fst (fst c)) cs)) as (ids & t0 & Hr).
        rewrite (Hok cs ids t0 Hc Hr) in H. injection H as <- <-. now exists cs, ids.
      + exfalso. pose proof (loop_bad _ Ha 0 t) as Hb. unfold MakeTypedInfo in H. revert H Hb.
        generalize (typedInfoLoop 0 (st_fields st)) as p. clear. intros p. unfold pbind. revert t.
        induction p as [r|c k IH|s q k IH|i k IH]; intros t H Hb; cbn [qrun pthen fst] in *; try discriminate.
        * subst r. discriminate.
        * exact (IH _ _ H Hb).
        * exact (IH _ _ H Hb).
    - intros (cs & ids & Hd & Hr & ->). now apply Hok.
  Qed.

  Lemma info_panics t tid tn st : names_ok st ->
    (fst (qrun t (MakeTypedInfo tid tn st)) = Panic <-> ~ exists cs, Forall2 described (st_fields st) cs) /\
    forall e, fst (qrun t (MakeTypedInfo tid tn st)) <> Err e.
  Proof.
    intros Hn. pose proof (found_all st Hn) as Hf.
    destruct (Forall_dec (fun f => found f <> None) found_dec (st_fields st)) as [Ha|Ha].
    - assert (exists cs, Forall2 (fun f c => found f = Some c) (st_fields st) cs) as [cs Hc].
      { clear - Ha. induction Ha as [|f fs H _ IH]; [exists []; constructor|]. destruct IH as [cs Hc].
        destruct (found f) as [c|] eqn:E; [|now destruct H]. exists (c :: cs). now constructor. }
      destruct (registers_total t (map (fun c => fst (fst c)) cs)) as (ids & t0 & Hr).
      unfold MakeTypedInfo.
      rewrite (qrun_bind _ _ t _ t0 (loop_ok _ _ Hc 0 t ids t0 Hr)). cbn [qrun pret fst].
      split; [|discriminate]. split; [discriminate|]. intros H. exfalso. apply H. exists cs. now apply Hf.
    - assert (fst (qrun t (MakeTypedInfo tid tn st)) = Panic) as Hp.
      { pose proof (loop_bad _ Ha 0 t) as Hb. unfold MakeTypedInfo. revert Hb.
        generalize (typedInfoLoop 0 (st_fields st)) as p. clear. intros p. unfold pbind. revert t.
        induction p as [r|c k IH|s q k IH|i k IH]; intros t Hb; cbn [qrun pthen fst] in *; try reflexivity.
        - subst r. reflexivity.
        - exact (IH _ _ Hb).
        - exact (IH _ _ Hb). }
      rewrite Hp. split; [|discriminate]. split; [|reflexivity]. intros _ [cs Hd]. apply Hf in Hd. apply Ha.
      clear - Hd. induction Hd; constructor; [congruence|assumption].
  Qed.
End Names.
