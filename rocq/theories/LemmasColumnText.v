(** The texts of types of columns are read back. *)

From Verif Require Import ModelColumnText SpecColumnText LemmasBase LemmasValue LemmasScanner LemmasIdent LemmasGrammarLink SpecAccepts LemmasSoundLink LemmasPieces LemmasPrint LemmasPrintStmt.
From Verif Require SpecCast LemmasCast.

Lemma type_panics ct : columnTypeString ct = None <-> unprintable_type ct.
Proof.
  unfold columnTypeString, unprintable_type. destruct (ct_type ct); try (split; [discriminate|contradiction]).
  1,2: destruct (Z.eqb_spec (ct_size ct) 0) as [E|E]; [split; [intros; exact E|reflexivity]|]; split; [|contradiction]; destruct (ct_fixed ct); [discriminate|]; destruct (_ =? _); discriminate.
  destruct (Z.eqb_spec (ct_size ct) 2) as [E|E]; [split; [discriminate|tauto]|]. destruct (Z.eqb_spec (ct_size ct) 4) as [E4|E4]; [split; [discriminate|tauto]|].
  destruct (Z.eqb_spec (ct_size ct) 8) as [E8|E8]; [split; [discriminate|tauto]|]. split; [tauto|reflexivity].
Qed.

(** ** The text *)
Lemma type_text_is ct t : 0 <= ct_size ct < 2 ^ 32 -> columnTypeString ct = Some t <-> type_text ct t.
Proof.
  intros R. assert (I : is_i64 (ct_size ct)) by (unfold is_i64; lia). pose proof (LemmasCast.format_int_decimal _ I) as D.
  split.
  - unfold columnTypeString. change ModelColumn.MaxColumnSize with 4294967294. destruct (ct_type ct) eqn:T.
    + intros [= <-]. apply tx_word. rewrite T. cbn. tauto.
    + intros [= <-]. apply tx_word. rewrite T. cbn. tauto.
    + destruct (Z.eqb_spec (ct_size ct) 0) as [E|E]; [discriminate|]. destruct (ct_fixed ct) eqn:F.
      * intros [= <-]. apply (tx_sized ct "CHAR" _); [rewrite T, F; cbn; tauto|exact E|rewrite F; discriminate|exact D].
      * destruct (Z.eqb_spec (ct_size ct) 4294967294) as [E4|E4]; intros [= <-]; [apply (tx_unlimited ct "TEXT"); [rewrite T; cbn; tauto|exact F|exact E4]|].
        apply (tx_sized ct "VARCHAR" _); [rewrite T, F; cbn; tauto|exact E|now intros _|exact D].
    + destruct (Z.eqb_spec (ct_size ct) 0) as [E|E]; [discriminate|]. destruct (ct_fixed ct) eqn:F.
      * intros [= <-]. apply (tx_sized ct "BINARY" _); [rewrite T, F; cbn; tauto|exact E|rewrite F; discriminate|exact D].
      * destruct (Z.eqb_spec (ct_size ct) 4294967294) as [E4|E4]; intros [= <-]; [apply (tx_unlimited ct "BYTES"); [rewrite T; cbn; tauto|exact F|exact E4]|].
        apply (tx_sized ct "VARBINARY" _); [rewrite T, F; cbn; tauto|exact E|now intros _|exact D].
    + intros [= <-]. apply tx_word. rewrite T. cbn. tauto.
    + destruct (Z.eqb_spec (ct_size ct) 2) as [E|E]; [intros [= <-]; apply tx_int; [exact T|rewrite E; cbn; tauto]|].
      destruct (Z.eqb_spec (ct_size ct) 4) as [E4|E4]; [intros [= <-]; apply tx_int; [exact T|rewrite E4; cbn; tauto]|].
      destruct (Z.eqb_spec (ct_size ct) 8) as [E8|E8]; [intros [= <-]; apply tx_int; [exact T|rewrite E8; cbn; tauto]|discriminate].
  - intros [s H|s T H|s H F E|s n H Z0 N Dn]; unfold columnTypeString; change ModelColumn.MaxColumnSize with 4294967294.
    + destruct H as [H|[H|[H|[]]]]; injection H as Ht <-; rewrite <- Ht; reflexivity.
    + rewrite T. destruct H as [H|[H|[H|[]]]]; injection H as Ht <-; rewrite <- Ht; reflexivity.
    + rewrite F, E. destruct H as [H|[H|[]]]; injection H as Ht <-; rewrite <- Ht; reflexivity.
    + apply Z.eqb_neq in Z0. rewrite Z0. assert (En : n = format_int (ct_size ct)) by (apply (LemmasCast.decimal_spec _ _ I); exact Dn). subst n.
      destruct H as [H|[H|[H|[H|[]]]]]; injection H as Ht Hf <-; rewrite <- Ht, <- Hf; try reflexivity;
        specialize (N (eq_sym Hf)); apply Z.eqb_neq in N; rewrite N; reflexivity.
Qed.

(** ** One text for each type *)
Lemma format_int_one m n : is_i64 m -> is_i64 n -> format_int m = format_int n -> m = n.
Proof.
  assert (One : forall s i, int_text s i -> forall j, int_text s j -> i = j).
  { intros s i [ds N D|ds N D|ds N D] j Hj; inversion Hj as [ds' N' D' E1 E2|ds' N' D' E1 E2|ds' N' D' E1 E2]; subst; try reflexivity;
      try (inversion D as [|? ? Hd]; subst; unfold digit in Hd; cbn in Hd; lia); try (inversion D' as [|? ? Hd]; subst; unfold digit in Hd; cbn in Hd; lia). }
  intros Hm Hn E. pose proof (format_int_text m Hm) as Tm. rewrite E in Tm. exact (One _ _ Tm _ (format_int_text n Hn)).
Qed.
Lemma sized_one (s : bytes) m n : 0 <= m <= 4294967294 -> 0 <= n <= 4294967294 -> s ++ str "(" ++ format_int m ++ str ")" = s ++ str "(" ++ format_int n ++ str ")" -> m = n.
Proof.
  intros Hm Hn E. apply app_inv_head in E. apply (app_inv_head (str "(")), app_inv_tail in E. apply format_int_one in E; [exact E|unfold is_i64; lia..].
Qed.
Lemma type_one a b : readable_type a -> readable_type b -> columnTypeString a = columnTypeString b ->
  ct_type a = ct_type b /\ ct_size a = ct_size b /\ ct_fixed a = ct_fixed b.
Proof.
  destruct a as [ta za fa na], b as [tb zb fb nb]. unfold readable_type, columnTypeString. cbn [ct_type ct_size ct_fixed].
  destruct ta; try contradiction; intros Ha; destruct tb; try contradiction; intros Hb;
    try (destruct Ha as [-> ->]); try (destruct Ha as [[->|[->| ->]] ->]); try (destruct Hb as [-> ->]); try (destruct Hb as [[->|[->| ->]] ->]);
    cbn [Z.eqb Pos.eqb]; try discriminate; try (intros _; now repeat split);
    repeat match goal with |- context [if ?z =? ?n then _ else _] => destruct (Z.eqb_spec z n); [try lia|] | |- context [if ?f then _ else _] => destruct f end;
    try discriminate; intros E; subst; repeat split; try discriminate; try congruence;
    match type of E with Some (?s ++ _) = Some _ => apply (f_equal (fun o => match o with Some x => x | None => [] end)) in E; cbn beta iota in E; apply (sized_one s) in E; [exact E|lia..] end.
Qed.

(** ** The types the parser gives *)
Lemma column_type_kinds ct ts : column_type ct ts -> readable_type ct \/ unprintable_type ct \/ real_type ct.
Proof.
  assert (K : forall i ct, In (i, ct) column_types -> readable_type ct \/ real_type ct).
  { intros i c H. cbn [column_types In] in H. repeat destruct H as [H|H]; try contradiction; injection H as <- <-; unfold readable_type, real_type; cbn [ct_type ct_size ct_fixed]; try (left; lia); try (left; split; [lia|reflexivity]); right; now repeat split. }
  intros [i c H|c H|i t s f n H Ht Hn]; [destruct (K i c H); tauto|destruct (K 18 c H); tauto|].
  destruct (Z.eq_dec n 0) as [->|N]; [right; left; destruct Ht as [-> | ->]; reflexivity|left; destruct Ht as [-> | ->]; unfold readable_type; cbn; lia].
Qed.
Definition kind_of_type (ct : coltype) : Prop := readable_type ct \/ unprintable_type ct \/ real_type ct.
Lemma details_kind id nm c col st ts st' : a_column_details id nm c col st ts st' -> kind_of_type (fst (fst (fst st))) -> kind_of_type (fst (fst (fst st'))).
Proof. induction 1; cbn [fst snd] in *; auto. Qed.
Lemma table_detail_kind id nm s ts s' : a_table_detail id nm s ts s' -> Forall kind_of_type (cb_types s) -> Forall kind_of_type (cb_types s').
Proof.
  intros H F. destruct H; cbn [cb_types]; try exact F. apply Forall_app. split; [exact F|]. constructor; [|constructor].
  match goal with H : a_column_details _ _ _ _ _ _ _ |- _ => apply details_kind in H; [exact H|] end. cbn [fst]. eapply column_type_kinds. eassumption.
Qed.
Lemma table_details_kind id nm s ts s' : a_table_details id nm s ts s' -> Forall kind_of_type (cb_types s) -> Forall kind_of_type (cb_types s').
Proof. induction 1; intros F; [eapply table_detail_kind; eassumption|]. apply IHa_table_details. eapply table_detail_kind; eassumption. Qed.
Lemma parsed_types {X : FloatLib} {L : CaseLib} {U : RuneLib} {B : BufLib} {P : PrintLib} : RuneLib_scan U ->
  forall input p tn cols types ds b csts fks p', parsing input p -> p_unscanned p = 0%nat -> p_failed p = false -> real (s_ids (p_scanner p)) ->
  Parse p = PStmt (Some (SCreateTable tn cols types ds b csts fks)) p' -> Forall kind_of_type types.
Proof.
  intros HU input p tn cols types ds b csts fks p' Hi Hu Hf R E. destruct (parse_sound HU input p _ p' Hi Hu Hf R E eq_refl) as (vs & left & _ & (ts & _ & A) & _).
  inversion A; subst; repeat match goal with H : _ (SCreateTable _ _ _ _ _ _ _) _ |- _ => tryif constr_eq H A then fail else (inversion H; subst; clear H) end.
  eapply table_details_kind; [eassumption|constructor].
Qed.

Section Text.
  Context {X : FloatLib} {L : CaseLib} {U : RuneLib} {P : PrintLib}.
  Context (HU : RuneLib_scan U) (HL : CaseLib_ok L).
  Variable T : idtable.
  Hypothesis R : real T.

  Ltac kw s := apply (c_word HU HL T R s s); is_reserved.
  Tactic Notation "then_kw" constr(s) constr(i) := apply (c_space T (str s) [KReserved i]); [kw s|].

  Lemma type_word s i : forallb (fun b => (65 <=? bz b) && (bz b <=? 90) || (97 <=? bz b) && (bz b <=? 122)) (str s) = true -> str s <> [] ->
    lookup_bytes keywords (str s) = Some i -> same_but_case (str s) (str s) -> 0 <= i -> chunk T (str s) [KIdent i].
  Proof. intros H1 H2 H3 H4 H5. apply (c_ident HU HL T R s s i); try assumption. now apply keyword_found. Qed.
  Lemma sized_word s i n : chunk T (str s) [KIdent i] -> 0 <= n <= 4294967294 ->
    chunk T (str s ++ str "(" ++ format_int n ++ str ")") [KIdent i; KRune 40; KInteger n; KRune 41].
  Proof.
    intros C Hn. apply (c_after T (str s) [KIdent i] _ [KRune 40; KInteger n; KRune 41] C).
    pose proof (a_lp T (format_int n) [KInteger n] [] [] (c_int T n ltac:(lia)) (a_nil T)) as K. rewrite app_nil_r in K. exact K.
  Qed.

  Ltac word s := apply (type_word s); try discriminate; vm_compute; reflexivity.
  Lemma type_text_back ct : readable_type ct -> exists s ts, columnTypeString ct = Some s /\ chunk T s ts /\
    column_type {| ct_type := ct_type ct; ct_size := ct_size ct; ct_fixed := ct_fixed ct; ct_notnull := false |} ts.
  Proof.
    destruct ct as [t z f n]. unfold readable_type, columnTypeString. cbn [ct_type ct_size ct_fixed]. destruct t; [contradiction| | | | |].
    - intros [-> ->]. exists (str "BOOL"), [KIdent 4]. split; [reflexivity|]. split; [word "BOOL"%string|constructor; cbn; tauto].
    - intros Hz. destruct (Z.eqb_spec z 0); [lia|]. destruct f.
      { eexists _, [KIdent 9; _; KInteger z; _]. split; [reflexivity|]. split; [apply (sized_word "CHAR"); [word "CHAR"%string|lia]|apply (cty_sized 9 _ 1); [cbn; tauto|tauto|lia]]. }
      destruct (Z.eqb_spec z ModelColumn.MaxColumnSize) as [->|N].
      { exists (str "TEXT"), [KIdent 43]. split; [reflexivity|]. split; [word "TEXT"%string|constructor; cbn; tauto]. }
      eexists _, [KIdent 46; _; KInteger z; _]. split; [reflexivity|]. split; [apply (sized_word "VARCHAR"); [word "VARCHAR"%string|lia]|apply (cty_sized 46 _ 1); [cbn; tauto|tauto|lia]].
    - intros Hz. destruct (Z.eqb_spec z 0); [lia|]. destruct f.
      { eexists _, [KIdent 2; _; KInteger z; _]. split; [reflexivity|]. split; [apply (sized_word "BINARY"); [word "BINARY"%string|lia]|apply (cty_sized 2 _ 1); [cbn; tauto|tauto|lia]]. }
      destruct (Z.eqb_spec z ModelColumn.MaxColumnSize) as [->|N].
      { exists (str "BYTES"), [KIdent 8]. split; [reflexivity|]. split; [word "BYTES"%string|constructor; cbn; tauto]. }
      eexists _, [KIdent 45; _; KInteger z; _]. split; [reflexivity|]. split; [apply (sized_word "VARBINARY"); [word "VARBINARY"%string|lia]|apply (cty_sized 45 _ 1); [cbn; tauto|tauto|lia]].
    - intros [-> ->]. exists (str "DOUBLE"), [KIdent 18]. split; [reflexivity|]. split; [word "DOUBLE"%string|constructor; cbn; tauto].
    - intros [[->|[->| ->]] ->].
      + exists (str "SMALLINT"), [KIdent 39]. split; [reflexivity|]. split; [word "SMALLINT"%string|constructor; cbn; tauto].
      + exists (str "INT"), [KIdent 23]. split; [reflexivity|]. split; [word "INT"%string|constructor; cbn; tauto].
      + exists (str "BIGINT"), [KIdent 1]. split; [reflexivity|]. split; [word "BIGINT"%string|constructor; cbn; tauto].
  Qed.

  Definition definition_text (p : Z * coltype) : printed :=
    PText (idString T (fst p) ++ str " " ++ match columnTypeString (snd p) with Some t => t | None => [] end ++
           (if ct_notnull (snd p) then str " NOT NULL" else [])).
  Definition definition_read (p : Z * coltype) (p' : Z * coltype * option expr) (ts : list tok) : Prop := column_read (p, None) p' ts.

  Lemma definition_back p : simple T (fst p) -> readable_type (snd p) ->
    exists s ts p', definition_text p = PText s /\ chunk T s ts /\ definition_read p p' ts.
  Proof.
    destruct p as [c ct]. cbn [fst snd]. intros Hc Ht. destruct (type_text_back ct Ht) as (s & tt & Es & Cs & Ct).
    set (tn := if ct_notnull ct then [KReserved kNOT; KReserved kNULL] else []).
    assert (An : after T (if ct_notnull ct then str " NOT NULL" else []) tn).
    { unfold tn. destruct (ct_notnull ct); [|apply a_nil]. apply (a_space T (str "NOT" ++ str " " ++ str "NULL")). then_kw "NOT"%string kNOT. kw "NULL"%string. }
    eexists _, ([KIdent c] ++ tt ++ tn), (c, ct, None). split; [unfold definition_text; cbn [fst snd]; rewrite Es; reflexivity|]. split; [apply c_space; [now apply c_name|]; now apply c_after|].
    split; [reflexivity|]. split; [reflexivity|]. split; [reflexivity|]. exists {| ct_type := ct_type ct; ct_size := ct_size ct; ct_fixed := ct_fixed ct; ct_notnull := false |}, tt, tn.
    split; [reflexivity|]. split; [exact Ct|]. intros id nm col cs fs. unfold tn. destruct ct as [t z f []]; cbn [ct_notnull ct_type ct_size ct_fixed]; repeat constructor.
  Qed.
  Lemma definitions_text l : l <> [] -> Forall (fun p => columnTypeString (snd p) <> None) l -> exists s, commas (map definition_text l) = PText s /\ column_definitions T l s.
  Proof.
    induction l as [|[c ct] l IH]; intros N F; [contradiction|]. inversion F as [|? ? Hp Hl]; subst. cbn [snd] in Hp. destruct (columnTypeString ct) as [t|] eqn:Et; [|contradiction]. destruct l as [|q l].
    - eexists. split; [cbn [map commas]; unfold definition_text; cbn [fst snd]; rewrite Et; reflexivity|]. now constructor.
    - destruct (IH ltac:(discriminate) Hl) as (s & E & D). eexists. split; [|apply cds_more; [exact Et|exact D]].
      change (commas (map definition_text ((c, ct) :: q :: l))) with (writes [definition_text (c, ct); PText (str ", "); commas (map definition_text (q :: l))]).
      rewrite E. unfold definition_text. cbn [fst snd]. rewrite Et. cbn [writes]. rewrite app_nil_r, <- !app_assoc. reflexivity.
  Qed.

  Lemma definition_columns l l' ts : listed definition_read l l' ts ->
    listed column_read (map (fun p => (p, None)) l) l' ts /\ map (fun p => fst (fst p)) l' = map fst l /\ map (fun p => snd (fst p)) l' = map snd l /\ map snd l' = map (fun _ => None) l.
  Proof.
    assert (One : forall p p' ts, definition_read p p' ts -> fst (fst p') = fst p /\ snd (fst p') = snd p /\ snd p' = None).
    { intros [c ct] [[c' ct'] d'] t (-> & -> & E & _). cbn. repeat split. now destruct d'. }
    induction 1 as [p p' ts H|p p' ts l l' ts' H Li (IH & I1 & I2 & I3)]; cbn [map]; destruct (One _ _ _ H) as (-> & -> & ->).
    - repeat split. now constructor.
    - rewrite I1, I2, I3. repeat split. now constructor.
  Qed.

  Lemma table_definition_back tn l : plain_table T tn -> l <> [] -> NoDup (map fst l) -> Forall (fun p => simple T (fst p) /\ readable_type (snd p)) l ->
    exists s ts, table_definition T tn l s /\ chunk T s ts /\ forall id nm, says id nm (table_of_columns tn l) ts.
  Proof.
    intros Ht Ne Nd F. destruct (table_back T tn Ht) as (tt & Ct & Tn).
    destruct (commas_back T definition_text definition_read l) as (s & ts & l' & E & C & Li); [|exact Ne|].
    { eapply Forall_impl; [|exact F]. intros p [H1 H2]. now apply definition_back. }
    destruct (definitions_text l Ne) as (s' & E' & D).
    { eapply Forall_impl; [|exact F]. intros p [_ H]. destruct (type_text_back _ H) as (t & _ & -> & _). discriminate. }
    rewrite E in E'. injection E' as <-. destruct (definition_columns l l' ts Li) as (Lc & M1 & M2 & M3).
    exists (str "CREATE" ++ str " " ++ str "TABLE" ++ str " " ++ tableString T tn ++ str " " ++ (str "(" ++ s ++ str ")")), (KReserved kCREATE :: KReserved kTABLE :: [] ++ tt ++ KRune 40 :: ts ++ [KRune 41]).
    split; [exists s; split; [exact D|reflexivity]|]. split.
    { then_kw "CREATE"%string kCREATE. then_kw "TABLE"%string kTABLE. apply c_space; [exact Ct|]. now apply c_paren. }
    intros id nm. assert (De : table_details id nm noTable ts (table_of l' [] [])).
    { apply (columns_read id nm _ _ _ Lc []). cbn [app]. rewrite map_map. cbn [fst]. exact Nd. }
    pose proof (say_create_table id nm false tn (table_of l' [] []) [] tt ts ltac:(constructor) Tn De) as K. cbn [table_of cb_cols cb_types cb_defaults cb_csts cb_fks] in K. rewrite M1, M2, M3 in K. exact K.
  Qed.
End Text.

Section Back.
  Context {X : FloatLib} {L : CaseLib} {U : RuneLib} {B : BufLib} {P : PrintLib}.

  Lemma table_definition_read : RuneLib_scan U -> CaseLib_ok L -> forall T tn l, real T -> plain_table T tn -> l <> [] -> NoDup (map fst l) ->
    Forall (fun p => simple T (fst p) /\ readable_type (snd p)) l ->
    exists text, table_definition T tn l (encode text) /\ Forall scalar text /\ read_as T text (table_of_columns tn l).
  Proof.
    intros HU HL T tn l R Ht Ne Nd F. destruct (table_definition_back HU HL T R tn l Ht Ne Nd F) as (t & ts & D & (ps & -> & (G & Hl & Fk) & _) & O).
    exists (ptexts ps). split; [exact D|]. split; [now apply good_scalar|]. intros input p Hi Hu Hf Hr Rp La.
    pose proof (pieces_statement HU ps G Hl) as St. rewrite <- Hr in St.
    destruct (parse_text HU input p _ _ Hi Hu Hf Rp St) as (T' & R' & La' & _ & K).
    destruct (K (table_of_columns tn l)) as (p' & Ep & _ & Er & _ & Ef).
    - exists ts. split; [apply (tokens_later _ _ _ _ La'), (tokens_later _ _ _ _ La), Fk|]. apply O.
    - exists p'. now repeat split.
  Qed.
End Back.

(** ** The predefined types *)

Lemma predefined_types : Forall (fun '(ct, t, notnull) =>
    columnTypeString ct = Some (str t) /\ ct_notnull ct = notnull /\ ct_fixed ct = false /\ (ct_type ct = BoolType \/ readable_type ct))
  [(ModelColumn.IdColType, "VARCHAR(128)"%string, true); (ModelColumn.Int32ColType, "INT"%string, true); (ModelColumn.Int64ColType, "BIGINT"%string, true);
   (ModelColumn.NullInt64ColType, "BIGINT"%string, false); (ModelColumn.BoolColType, "BOOL"%string, true);
   (ModelColumn.StringColType, "VARCHAR(4096)"%string, true); (ModelColumn.NullStringColType, "VARCHAR(4096)"%string, false)].
Proof.
  repeat (apply Forall_cons; [split; [vm_compute; reflexivity|]; split; [reflexivity|]; split; [reflexivity|]|]); try apply Forall_nil;
    first [left; reflexivity|right; vm_compute; intuition discriminate].
Qed.
Lemma predefined_bool : ~ (forall ct, In ct [ModelColumn.IdColType; ModelColumn.Int32ColType; ModelColumn.Int64ColType; ModelColumn.NullInt64ColType; ModelColumn.BoolColType;
  ModelColumn.StringColType; ModelColumn.NullStringColType] -> readable_type ct).
Proof. intros H. destruct (H ModelColumn.BoolColType) as [E _]; [cbn; tauto|]. discriminate E. Qed.
