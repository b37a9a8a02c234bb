(** Names and columns written as text in tests. *)

From Verif Require Import SpecTestColumns LemmasBase LemmasValue LemmasIdent LemmasScanner LemmasPieces LemmasScanTokens LemmasPrint LemmasGrammarLink LemmasTestParse.
From Coq Require Import Lia.

Lemma coltype_eq_dec (a b : coltype) : {a = b} + {a <> b}.
Proof. decide equality; (apply Z.eq_dec || apply Bool.bool_dec || decide equality). Defined.

Section Columns.
  Context {X : FloatLib} {L : CaseLib} {U : RuneLib}.
  Hypothesis HU : RuneLib_scan U.

  (** ** Words *)

  Lemma word_iff r : identifierRune r = true <-> word_rune r.
  Proof. unfold identifierRune, word_rune. rewrite !orb_true_iff, !Z.eqb_eq. tauto. Qed.
  Lemma word_run w : Forall (fun r => identifierRune r = true) w <-> Forall word_rune w.
  Proof. rewrite !Forall_forall. split; intros H x K; apply word_iff, H, K. Qed.
  Lemma word_visible r : word_rune r -> x_is_space r = false.
  Proof.
    destruct HU as (A & _ & C & D). intros [H|[H|[->| ->]]]; [now apply C|now apply D|..]; apply not_true; rewrite (space_ascii HU) by lia; lia.
  Qed.
  Lemma word_not r : In r [0; 40; 41; 44] -> ~ word_rune r.
  Proof.
    intros H K. assert (R : 0 <= r < 128) by (cbn in H; lia). destruct K as [K|[K|K]]; [rewrite (letter_ascii HU) in K by exact R|rewrite (digit_ascii HU) in K by exact R|]; cbn in H; lia.
  Qed.
  Lemma word_head w : word w -> exists r w', w = r :: w' /\ word_rune r /\ x_is_space r = false.
  Proof. intros [N F]. destruct w as [|r w]; [contradiction|]. inversion F; subst. exists r, w. repeat split; auto. now apply word_visible. Qed.

  (** What follows a word. *)
  Definition breaks (f : list Z) : Prop := match f with [] => True | r :: _ => ~ word_rune r end.
  Lemma breaks_pred f : breaks f -> match f with [] => true = true | r :: _ => identifierRune r = false end.
  Proof. destruct f as [|r f]; [reflexivity|]. intros H. apply not_true. now rewrite word_iff. Qed.
  Lemma breaks_spaces sp f : spaces sp -> (sp = [] -> breaks f) -> breaks (sp ++ f).
  Proof. intros S1 H. destruct S1 as [|s sp K _]; [now apply H|]. cbn. intros W. apply word_visible in W. congruence. Qed.

  Lemma skip_word sp w f : spaces sp -> word w -> exists r w', w = r :: w' /\ word_rune r /\ skipLoop (sp ++ w ++ f) = (Some r, {| r_ahead := w' ++ f; r_last := Some r |}).
  Proof.
    intros S1 Hw. destruct (word_head w Hw) as (r & w' & -> & Hr & V). exists r, w'. repeat split; auto. cbn [app]. now apply skip_spaces.
  Qed.

  Lemma ident_complete t w f rs sp : spaces sp -> word w -> breaks f -> skipLoop (r_ahead rs) = skipLoop (sp ++ w ++ f) ->
    exists la, expectIdent t rs = Some (snd (ID t (encode w) false), fst (ID t (encode w) false), {| r_ahead := f; r_last := la |}).
  Proof.
    intros S1 Hw Hf E. destruct (skip_word sp w f S1 Hw) as (r & w' & -> & Hr & K). destruct Hw as [_ F]. inversion F; subst.
    destruct (runes_complete r w' identifierRune true f (Some r)) as [la Kr]; [intros ->; now apply (word_not 0) in Hr; [|left]|now apply word_run|now apply breaks_pred|].
    exists la. unfold expectIdent, skipTo. rewrite E, K, (proj2 (word_iff r) Hr). cbn [negb]. rewrite Kr. destruct (ID t _ false). reflexivity.
  Qed.
  Lemma optional_complete t w f rs sp : spaces sp -> word w -> breaks f -> skipLoop (r_ahead rs) = skipLoop (sp ++ w ++ f) ->
    exists la, optionalIdent t rs = Some (Some (snd (ID t (encode w) false)), fst (ID t (encode w) false), {| r_ahead := f; r_last := la |}).
  Proof.
    intros S1 Hw Hf E. destruct (skip_word sp w f S1 Hw) as (r & w' & -> & Hr & K). destruct Hw as [_ F]. inversion F; subst.
    destruct (runes_complete r w' identifierRune true f (Some r)) as [la Kr]; [intros ->; now apply (word_not 0) in Hr; [|left]|now apply word_run|now apply breaks_pred|].
    exists la. unfold optionalIdent, ModelTestutil.skipWhitespace. rewrite E, K, (proj2 (word_iff r) Hr). cbn [negb]. rewrite Kr. destruct (ID t _ false). reflexivity.
  Qed.
  Lemma run_sound r rs s rs' : word_rune r -> readRunes rs r true identifierRune = Some (s, rs') ->
    exists w, r_ahead rs = w ++ r_ahead rs' /\ s = encode (r :: w) /\ word (r :: w) /\ breaks (r_ahead rs').
  Proof.
    intros Hr E. apply runes_sound in E as (w & E & -> & F & N); [|intros ->; now apply (word_not 0) in Hr; [|left]]. exists w. split; [exact E|]. split; [reflexivity|].
    split; [split; [discriminate|]; constructor; [exact Hr|now apply word_run]|]. unfold breaks. destruct (r_ahead rs'); [exact Logic.I|]. rewrite <- word_iff, N. discriminate.
  Qed.
  Lemma ident_sound t rs i t' rs' : expectIdent t rs = Some (i, t', rs') ->
    exists sp w, r_ahead rs = sp ++ w ++ r_ahead rs' /\ spaces sp /\ word w /\ breaks (r_ahead rs') /\ ID t (encode w) false = (t', i).
  Proof.
    unfold expectIdent. destruct (skipTo rs) as [[r rs1]|] eqn:E1; [|discriminate]. apply skipTo_sound in E1 as (sp & E1 & S1 & _).
    destruct (identifierRune r) eqn:Er; cbn [negb]; [|discriminate]. apply word_iff in Er. destruct (readRunes rs1 r true identifierRune) as [[s rs2]|] eqn:E2; [|discriminate].
    apply run_sound in E2 as (w & E2 & -> & Hw & Hb); [|exact Er]. destruct (ID t (encode (r :: w)) false) as [t1 j] eqn:EI. intros [= <- <- <-].
    exists sp, (r :: w). split; [now rewrite E1, E2|]. auto.
  Qed.
  Lemma optional_sound t rs o t' rs' : optionalIdent t rs = Some (o, t', rs') ->
    match o with
    | Some i => exists sp w, r_ahead rs = sp ++ w ++ r_ahead rs' /\ spaces sp /\ word w /\ breaks (r_ahead rs') /\ ID t (encode w) false = (t', i)
    | None => t' = t /\ exists sp, r_ahead rs = sp ++ r_ahead rs' /\ spaces sp
    end.
  Proof.
    unfold optionalIdent, ModelTestutil.skipWhitespace. pose proof (skip_sound (r_ahead rs)) as K. destruct (skipLoop (r_ahead rs)) as [[r|] rs1].
    - destruct K as (sp & E1 & S1 & _ & La). destruct (identifierRune r) eqn:Er; cbn [negb].
      + apply word_iff in Er. destruct (readRunes rs1 r true identifierRune) as [[s rs2]|] eqn:E2; [|discriminate].
        apply run_sound in E2 as (w & E2 & -> & Hw & Hb); [|exact Er]. destruct (ID t (encode (r :: w)) false) as [t1 j] eqn:EI. intros [= <- <- <-].
        exists sp, (r :: w). split; [now rewrite E1, E2|]. auto.
      + intros [= <- <- <-]. split; [reflexivity|]. exists sp. unfold unreadRune_. rewrite La. auto.
    - destruct K as [S1 ->]. intros [= <- <- <-]. split; [reflexivity|]. exists (r_ahead rs). now rewrite app_nil_r.
  Qed.
  (** Nothing that starts with a word. *)
  Lemma optional_none t rs : match fst (skipLoop (r_ahead rs)) with Some r => ~ word_rune r | None => True end ->
    exists rs', optionalIdent t rs = Some (None, t, rs') /\ skipLoop (r_ahead rs') = skipLoop (r_ahead rs).
  Proof.
    unfold optionalIdent, ModelTestutil.skipWhitespace. pose proof (skip_sound (r_ahead rs)) as K. destruct (skipLoop (r_ahead rs)) as [[r|] rs1] eqn:E; cbn [fst].
    - destruct K as (sp & E1 & S1 & V & La). intros N. rewrite (not_true (identifierRune r)) by now rewrite word_iff. cbn [negb]. eexists. split; [reflexivity|].
      unfold unreadRune_. rewrite La. cbn [r_ahead skipLoop]. rewrite V. destruct rs1 as [a b]. cbn in *. now subst b.
    - destruct K as [S1 ->]. intros _. eexists. split; reflexivity.
  Qed.

  (** ** Keywords *)

  Lemma keyword_number t n k i : real t -> In (k, i) keywords -> means n false (Keyword k) -> ID t n false = (t, i).
  Proof. intros R K M. apply (ID_in t n false (Keyword k)); [exact R|exact M|]. unfold entries. apply in_or_app. right. apply in_map_iff. now exists (k, i). Qed.
  Lemma number_keyword t n k i t' : real t -> In (k, i) keywords -> ID t n false = (t', i) -> means n false (Keyword k) /\ t' = t.
  Proof.
    intros R K E. destruct (means_total n false) as [m M]. pose proof (ID_entry t n false m R M) as K1. pose proof (ID_grown t n false R) as [R' _]. rewrite E in K1, R'. cbn [fst snd] in *.
    assert (K2 : In (Keyword k, i) (entries t')) by (unfold entries; apply in_or_app; right; apply in_map_iff; now exists (k, i)).
    assert (m = Keyword k) by (eapply entries_meaning_unique; [exact (real_ok _ R')|exact K1|exact K2]). subst m. split; [exact M|].
    rewrite (keyword_number t n k i R K M) in E. now injection E.
  Qed.
  Lemma type_number k ct : In (k, ct) type_names -> exists i, In (k, i) keywords /\ findColumnType i = Some ct.
  Proof.
    intros H. assert (A : forallb (fun p => existsb (fun q => bytes_eqb (fst q) (fst p) && match findColumnType (snd q) with Some ct => if coltype_eq_dec ct (snd p) then true else false | None => false end) keywords) type_names = true) by (vm_compute; reflexivity).
    rewrite forallb_forall in A. specialize (A _ H). apply existsb_exists in A as ([k' i] & K & E). cbn [fst snd] in E. apply andb_prop in E as [E1 E2]. apply bytes_eqb_eq in E1. subst k'.
    exists i. split; [exact K|]. destruct (findColumnType i) as [c|]; [|discriminate]. destruct (coltype_eq_dec c ct); [now subst|discriminate].
  Qed.
  Lemma number_type i ct : findColumnType i = Some ct -> exists k, In (k, i) keywords /\ In (k, ct) type_names.
  Proof.
    intros H. unfold findColumnType in H. destruct (find _ ColumnTypes) as [[j c]|] eqn:E; [|discriminate]. injection H as ->. apply find_some in E as [E K]. cbn [fst] in K. apply Z.eqb_eq in K. subst j.
    assert (A : forallb (fun p => existsb (fun q => (snd q =? fst p) && existsb (fun c => bytes_eqb (fst c) (fst q) && if coltype_eq_dec (snd c) (snd p) then true else false) type_names) keywords) ColumnTypes = true) by (vm_compute; reflexivity).
    rewrite forallb_forall in A. specialize (A _ E). apply existsb_exists in A as ([k i'] & K & B). cbn [fst snd] in B. apply andb_prop in B as [B1 B2]. apply Z.eqb_eq in B1. subst i'.
    apply existsb_exists in B2 as ([k' c] & K' & B). cbn [fst snd] in B. apply andb_prop in B as [B1 B2]. apply bytes_eqb_eq in B1. subst k'. destruct (coltype_eq_dec c ct); [subst|discriminate]. now exists k.
  Qed.
  Lemma plain_keywords : In (str "PRIMARY", kPRIMARY) keywords /\ In (str "KEY", kKEY) keywords /\ In (str "NOT", kNOT) keywords /\ In (str "NULL", kNULL) keywords.
  Proof.
    assert (A : forall p, existsb (fun q => bytes_eqb (fst q) (fst p) && (snd q =? snd p)) keywords = true -> In p keywords).
    { intros [k i] H. apply existsb_exists in H as ([k' i'] & K & E). cbn [fst snd] in E. apply andb_prop in E as [E1 E2]. apply bytes_eqb_eq in E1. apply Z.eqb_eq in E2. now subst. }
    repeat split; apply A; vm_compute; reflexivity.
  Qed.

  (** ** The words behind a type *)

  Definition with_null (ct : coltype) (nn : bool) : coltype := if nn then set_notnull ct else ct.
  Definition no_word (f : list Z) : Prop := match fst (skipLoop f) with Some r => ~ word_rune r | None => True end.
  Lemma no_word_breaks f : no_word f -> breaks f.
  Proof.
    unfold no_word. destruct f as [|r f]; [constructor|]. cbn [skipLoop breaks]. destruct (x_is_space r) eqn:E; [intros _ W; apply word_visible in W; congruence|]. cbn. auto.
  Qed.
  Lemma flags_breaks num w key nn f : flags_text num true w key nn -> no_word f -> breaks (w ++ f).
  Proof.
    intros H N. inversion H; subst; [now apply no_word_breaks|..]; (rewrite <- app_assoc; apply breaks_spaces; [assumption|intros ->; match goal with H : true = true -> _ |- _ => now elim (H eq_refl) end]).
  Qed.
  Lemma skip_length l r rs : skipLoop l = (Some r, rs) -> (length (r_ahead rs) < length l)%nat.
  Proof. intros E. pose proof (skip_sound l) as K. rewrite E in K. destruct K as (sp & -> & _). rewrite app_length. cbn. lia. Qed.

  Lemma flags_complete num apart w key nn : flags_text num apart w key nn -> forall t f ct rs n, real t -> no_word f ->
    skipLoop (r_ahead rs) = skipLoop (w ++ f) -> (length (r_ahead rs) < n)%nat ->
    exists rs', columnWords n num ct t rs = Some (with_null ct nn, map (fun k => MakeColumnKey k false) key, t, rs') /\ skipLoop (r_ahead rs') = skipLoop f.
  Proof.
    destruct plain_keywords as (KP & KK & KN & KU).
    induction 1 as [apart|apart sp1 w1 sp2 w2 w key nn S1 _ [W1 M1] [S2 N2] [W2 M2] Hf IH|apart sp1 w1 sp2 w2 w key nn S1 _ [W1 M1] [S2 N2] [W2 M2] Hf IH]; intros t f ct rs n R N E Hn; (destruct n as [|n]; [lia|]).
    - destruct (optional_none t rs) as (rs' & K & K'); [rewrite E; exact N|]. exists rs'. cbn [columnWords]. rewrite K. split; [reflexivity|]. now rewrite K', E.
    - rewrite <- !app_assoc in E.
      destruct (optional_complete t w1 (sp2 ++ w2 ++ w ++ f) rs sp1 S1 W1) as [la K]; [apply breaks_spaces; [exact S2|contradiction]|exact E|].
      rewrite (keyword_number t _ _ _ R KP M1) in K. cbn [fst snd] in K.
      destruct (ident_complete t w2 (w ++ f) {| r_ahead := sp2 ++ w2 ++ w ++ f; r_last := la |} sp2 S2 W2) as [la' K']; [now apply (flags_breaks num w key nn)|reflexivity|].
      rewrite (keyword_number t _ _ _ R KK M2) in K'. cbn [fst snd] in K'.
      destruct (skip_word sp1 w1 (sp2 ++ w2 ++ w ++ f) S1 W1) as (r & w1' & -> & _ & Es). rewrite <- E in Es. apply skip_length in Es. cbn [r_ahead] in Es.
      destruct (IH t f ct {| r_ahead := w ++ f; r_last := la' |} n R N eq_refl) as (rs' & Kr & Es'); [cbn [r_ahead]; rewrite !app_length in *; lia|].
      exists rs'. cbn [columnWords]. rewrite K, Z.eqb_refl, K', Z.eqb_refl. cbn [negb]. rewrite Kr. split; [reflexivity|exact Es'].
    - rewrite <- !app_assoc in E.
      destruct (optional_complete t w1 (sp2 ++ w2 ++ w ++ f) rs sp1 S1 W1) as [la K]; [apply breaks_spaces; [exact S2|contradiction]|exact E|].
      rewrite (keyword_number t _ _ _ R KN M1) in K. cbn [fst snd] in K.
      destruct (ident_complete t w2 (w ++ f) {| r_ahead := sp2 ++ w2 ++ w ++ f; r_last := la |} sp2 S2 W2) as [la' K']; [now apply (flags_breaks num w key nn)|reflexivity|].
      rewrite (keyword_number t _ _ _ R KU M2) in K'. cbn [fst snd] in K'.
      destruct (skip_word sp1 w1 (sp2 ++ w2 ++ w ++ f) S1 W1) as (r & w1' & -> & _ & Es). rewrite <- E in Es. apply skip_length in Es. cbn [r_ahead] in Es.
      destruct (IH t f (set_notnull ct) {| r_ahead := w ++ f; r_last := la' |} n R N eq_refl) as (rs' & Kr & Es'); [cbn [r_ahead]; rewrite !app_length in *; lia|].
      exists rs'. cbn [columnWords]. rewrite K. change (kNOT =? kPRIMARY) with false. rewrite Z.eqb_refl, K', Z.eqb_refl. cbn [negb]. rewrite Kr. split; [|exact Es'].
      destruct nn; reflexivity.
  Qed.

  Lemma flags_sound num n : forall t ct rs ct' key' t' rs' sp l apart, real t -> columnWords n num ct t rs = Some (ct', key', t', rs') ->
    l = sp ++ r_ahead rs -> spaces sp -> (apart = true -> breaks l) ->
    exists w key nn sp', l = w ++ sp' ++ r_ahead rs' /\ flags_text num apart w key nn /\ ct' = with_null ct nn /\ key' = map (fun k => MakeColumnKey k false) key /\ t' = t /\ spaces sp'.
  Proof.
    destruct plain_keywords as (KP & KK & KN & KU).
    induction n as [|n IH]; intros t ct rs ct' key' t' rs' sp l apart R; cbn [columnWords]; [discriminate|].
    destruct (optionalIdent t rs) as [[[[i|] t1] rs1]|] eqn:E1; [| |discriminate]; apply optional_sound in E1.
    - destruct E1 as (sp1 & w1 & E1 & S1 & W1 & B1 & I1).
      assert (Two : forall kw1 kw2 (i2 : Z) t2 rs2, In (kw1, i) keywords -> In (kw2, i2) keywords -> expectIdent t1 rs1 = Some (i2, t2, rs2) ->
        forall l, l = sp ++ r_ahead rs -> spaces sp -> (apart = true -> breaks l) ->
        exists sp0 sp2 w2, l = sp0 ++ w1 ++ sp2 ++ w2 ++ r_ahead rs2 /\ spaces sp0 /\ (apart = true -> sp0 <> []) /\ keyword kw1 w1 /\ some_spaces sp2 /\ keyword kw2 w2 /\ t2 = t /\ breaks (r_ahead rs2)).
      { intros kw1 kw2 i2 t2 rs2 K1 K2 E2 l0 -> Sp Ab. destruct (number_keyword t _ _ _ _ R K1 I1) as [M1 ->].
        apply ident_sound in E2 as (sp2 & w2 & E2 & S2 & W2 & B2 & I2). destruct (number_keyword t _ _ _ _ R K2 I2) as [M2 ->].
        exists (sp ++ sp1), sp2, w2. rewrite E1, E2, <- !app_assoc. split; [reflexivity|]. split; [apply Forall_app; now split|]. split.
        - intros Ha E0. apply app_eq_nil in E0 as [-> ->]. specialize (Ab Ha). rewrite E1 in Ab. destruct (word_head w1 W1) as (r & w' & -> & Hr & _). exact (Ab Hr).
        - split; [now split|]. split; [split; [exact S2|]|split; [now split|split; [reflexivity|exact B2]]]. intros ->. rewrite E2 in B1. destruct (word_head w2 W2) as (r & w' & -> & Hr & _). exact (B1 Hr). }
      destruct (Z.eqb_spec i kPRIMARY) as [->|_]; [|destruct (Z.eqb_spec i kNOT) as [->|_]; [|discriminate]].
      + destruct (expectIdent t1 rs1) as [[[i2 t2] rs2]|] eqn:E2; [|discriminate]. destruct (Z.eqb_spec i2 kKEY) as [->|]; cbn [negb]; [|discriminate].
        destruct (columnWords n num ct t2 rs2) as [[[[ct3 key3] t3] rs3]|] eqn:E3; [|discriminate]. intros [= <- <- <- <-] El Sp Ab.
        destruct (Two _ _ _ _ _ KP KK eq_refl l El Sp Ab) as (sp0 & sp2 & w2 & -> & S0 & A0 & W1' & S2 & W2 & -> & B2).
        destruct (IH t ct rs2 ct3 key3 t3 rs3 [] (r_ahead rs2) true R E3 eq_refl ltac:(constructor) (fun _ => B2)) as (w & key & nn & sp' & -> & F & -> & -> & -> & S').
        exists (sp0 ++ w1 ++ sp2 ++ w2 ++ w), (num :: key), nn, sp'. split; [rewrite <- !app_assoc; reflexivity|]. split; [now apply fl_primary|]. auto.
      + destruct (expectIdent t1 rs1) as [[[i2 t2] rs2]|] eqn:E2; [|discriminate]. destruct (Z.eqb_spec i2 kNULL) as [->|]; cbn [negb]; [|discriminate].
        intros E3 El Sp Ab.
        destruct (Two _ _ _ _ _ KN KU eq_refl l El Sp Ab) as (sp0 & sp2 & w2 & -> & S0 & A0 & W1' & S2 & W2 & -> & B2).
        destruct (IH t _ rs2 ct' key' t' rs' [] (r_ahead rs2) true R E3 eq_refl ltac:(constructor) (fun _ => B2)) as (w & key & nn & sp' & -> & F & -> & -> & -> & S').
        exists (sp0 ++ w1 ++ sp2 ++ w2 ++ w), key, true, sp'. split; [rewrite <- !app_assoc; reflexivity|]. split; [now apply (fl_notnull num apart sp0 w1 sp2 w2 w key nn)|]. split; [destruct nn; reflexivity|]. auto.
    - destruct E1 as (-> & sp1 & E1 & S1). intros [= <- <- <- <-] -> Sp _. exists [], [], false, (sp ++ sp1). rewrite E1, <- app_assoc. split; [reflexivity|].
      split; [constructor|]. repeat split. apply Forall_app. now split.
  Qed.

  (** ** The length *)

  Definition stringy (ct : coltype) : bool := match ct_type ct with StringType | BytesType => true | _ => false end.
  Lemma stringy_iff ct : stringy ct = true <-> ct_type ct = StringType \/ ct_type ct = BytesType.
  Proof. unfold stringy. destruct (ct_type ct); split; try discriminate; auto; intros [K|K]; discriminate. Qed.
  Definition optional_size (ct : coltype) (rs : reader) : option (option Z * reader) :=
    match ct_type ct with StringType | BytesType => parseOptionalSize rs | _ => Some (None, rs) end.
  Definition sized_type (ct : coltype) (o : option Z) : coltype := match o with Some s => set_size ct s | None => ct end.

  Definition no_paren (f : list Z) : Prop := match fst (skipLoop f) with Some r => r <> 40 | None => True end.
  Lemma digit_nonzero r : x_is_digit r = true -> r <> 0 /\ x_is_space r = false.
  Proof. intros H. split; [intros ->; rewrite (digit_ascii HU) in H by lia; lia|]. now apply HU. Qed.

  Lemma size_complete ct w ct' sized : length_text ct w ct' sized -> forall f la, (sized = false -> no_paren f) ->
    exists o rs, optional_size ct {| r_ahead := w ++ f; r_last := la |} = Some (o, rs) /\ ct' = sized_type ct o /\ skipLoop (r_ahead rs) = skipLoop f.
  Proof.
    destruct punct_visible as (_ & V1 & _); [exact HU|]. assert (V0 : x_is_space 40 = false) by (apply punct_visible; exact HU).
    destruct 1 as [|sp1 sp2 ds sp3 i Ht S1 S2 S3 Nd Fd Hi Ri]; intros f la N.
    - cbn [app]. unfold optional_size. assert (A : exists o rs, parseOptionalSize {| r_ahead := f; r_last := la |} = Some (o, rs) /\ ct = sized_type ct o /\ skipLoop (r_ahead rs) = skipLoop f).
      { specialize (N eq_refl). unfold no_paren in N. unfold parseOptionalSize, ModelTestutil.skipWhitespace. cbn [r_ahead]. pose proof (skip_sound f) as K. destruct (skipLoop f) as [[r|] rs1]; cbn [fst] in N.
        - destruct K as (sp & _ & _ & V & La). rewrite (proj2 (Z.eqb_neq r 40) N). cbn [negb]. eexists _, _. split; [reflexivity|]. split; [reflexivity|].
          unfold unreadRune_. rewrite La. cbn [r_ahead skipLoop]. rewrite V. destruct rs1 as [a b]. cbn in *. now subst b.
        - destruct K as [_ ->]. eexists _, _. repeat split. }
      destruct (ct_type ct); try exact A; (eexists _, _; repeat split; reflexivity).
    - assert (E : optional_size ct {| r_ahead := (sp1 ++ 40 :: sp2 ++ ds ++ sp3 ++ [41]) ++ f; r_last := la |} = parseOptionalSize {| r_ahead := sp1 ++ 40 :: sp2 ++ ds ++ sp3 ++ 41 :: f; r_last := la |}).
      { unfold optional_size. apply stringy_iff in Ht. unfold stringy in Ht. replace ((sp1 ++ 40 :: sp2 ++ ds ++ sp3 ++ [41]) ++ f) with (sp1 ++ 40 :: sp2 ++ ds ++ sp3 ++ 41 :: f) by (rewrite <- !app_assoc; cbn [app]; now rewrite <- !app_assoc).
        destruct (ct_type ct); try discriminate; reflexivity. }
      rewrite E. clear E. unfold parseOptionalSize, ModelTestutil.skipWhitespace. cbn [r_ahead]. rewrite skip_spaces by assumption. cbn [Z.eqb Pos.eqb negb].
      destruct ds as [|d ds]; [contradiction|]. inversion Fd as [|? ? Hd Fd']; subst. destruct (digit_nonzero d Hd) as [Nz Vd]. cbn [app]. rewrite skipTo_spaces by assumption. rewrite Hd. cbn [negb].
      destruct (runes_complete d ds x_is_digit true (sp3 ++ 41 :: f) (Some d) Nz Fd') as [la' Kr].
      { destruct S3 as [|s sp3 Hs _]; cbn [app]; apply not_true; [rewrite (digit_ascii HU) by lia; lia|]. intros K. apply digit_nonzero in K. destruct K. congruence. }
      rewrite Kr. rewrite (proj2 (parse_int_spec _ i) (conj Hi Ri)). rewrite expect_spaces by assumption. eexists _, _. split; [reflexivity|]. split; reflexivity.
  Qed.
  Lemma size_sound ct rs o rs' : optional_size ct rs = Some (o, rs') -> breaks (r_ahead rs) ->
    exists w sized sp, r_ahead rs = w ++ sp ++ r_ahead rs' /\ length_text ct w (sized_type ct o) sized /\ spaces sp /\ (sized = true -> sp = []) /\ (sized = false -> w = []).
  Proof.
    unfold optional_size. intros H B.
    assert (None_case : forall sp, r_ahead rs = sp ++ r_ahead rs' -> spaces sp -> o = None -> exists w sized sp, r_ahead rs = w ++ sp ++ r_ahead rs' /\ length_text ct w (sized_type ct o) sized /\ spaces sp /\ (sized = true -> sp = []) /\ (sized = false -> w = [])).
    { intros sp E S1 ->. exists [], false, sp. split; [exact E|]. split; [constructor|]. split; [exact S1|]. split; [discriminate|reflexivity]. }
    destruct (stringy ct) eqn:St.
    2:{ assert (Some (@None Z, rs) = Some (o, rs')) as [= <- <-] by (unfold stringy in St; destruct (ct_type ct); try discriminate; exact H). apply (None_case []); [reflexivity|constructor|reflexivity]. }
    assert (H' : parseOptionalSize rs = Some (o, rs')) by (unfold stringy in St; destruct (ct_type ct); try discriminate; exact H). clear H. apply stringy_iff in St.
    unfold parseOptionalSize, ModelTestutil.skipWhitespace in H'. pose proof (skip_sound (r_ahead rs)) as K. destruct (skipLoop (r_ahead rs)) as [[r|] rs1].
    - destruct K as (sp & E1 & S1 & _ & La). destruct (Z.eqb_spec r 40) as [->|]; cbn [negb] in H'.
      + destruct (skipTo rs1) as [[d rs2]|] eqn:E2; [|discriminate]. apply skipTo_sound in E2 as (sp2 & E2 & S2 & _).
        destruct (x_is_digit d) eqn:Hd; cbn [negb] in H'; [|discriminate]. destruct (readRunes rs2 d true x_is_digit) as [[s rs3]|] eqn:E3; [|discriminate].
        apply runes_sound in E3 as (ds & E3 & -> & Fd & _); [|now apply digit_nonzero]. destruct (parse_int (encode (d :: ds))) as [i|] eqn:Ei; [|discriminate].
        apply parse_int_spec in Ei as [Ei Ri]. destruct (expectRune rs3 41 false) as [[e rs4]|] eqn:E4; [|discriminate]. apply expect_sound in E4 as [(-> & sp3 & E4 & S3 & _)|(K & _)]; [|discriminate].
        injection H' as <- <-. exists (sp ++ 40 :: sp2 ++ (d :: ds) ++ sp3 ++ [41]), true, []. split; [rewrite E1, E2, E3, E4; cbn [app]; rewrite <- !app_assoc; cbn [app]; rewrite <- !app_assoc; cbn [app]; now rewrite <- !app_assoc|].
        split; [apply (le_some ct sp sp2 (d :: ds) sp3 i); auto; discriminate|]. split; [constructor|]. split; [reflexivity|discriminate].
      + injection H' as <- <-. apply (None_case sp); [unfold unreadRune_; rewrite La; exact E1|exact S1|reflexivity].
    - destruct K as [S1 ->]. injection H' as <- <-. apply (None_case (r_ahead rs)); [cbn; now rewrite app_nil_r|exact S1|reflexivity].
  Qed.

  (** ** Columns *)

  Definition column_end (f : list Z) : Prop := match fst (skipLoop f) with Some r => r = 44 | None => True end.
  Lemma column_end_ok f : column_end f -> no_word f /\ no_paren f.
  Proof.
    unfold column_end, no_word, no_paren. destruct (fst (skipLoop f)); [intros ->|auto]. split; [|discriminate]. apply word_not. cbn. auto.
  Qed.
  Lemma fst_skip_spaces sp f : spaces sp -> skipLoop (sp ++ f) = skipLoop f.
  Proof. induction 1 as [|s sp H _ IH]; [reflexivity|]. cbn [app skipLoop]. now rewrite H. Qed.

  (** One round of the loop up to the comma. *)
  Definition one_column (num : Z) (t : idtable) (rs : reader) : option (Z * coltype * list Z * idtable * reader) :=
    match expectIdent t rs with
    | None => None
    | Some (col, t, rs) =>
        match expectIdent t rs with
        | None => None
        | Some (typ, t, rs) =>
            match findColumnType typ with
            | None => None
            | Some ct =>
                match optional_size ct rs with
                | None => None
                | Some (sz, rs) =>
                    match columnWords (S (length (r_ahead rs))) num (sized_type ct sz) t rs with
                    | None => None
                    | Some (ct, key, t, rs) => Some (col, ct, key, t, rs)
                    end
                end
            end
        end
    end.
  Lemma columnsLoop_step n num t rs : columnsLoop (S n) num t rs =
    match one_column num t rs with
    | None => None
    | Some (col, ct, key, t, rs) =>
        match expectRune rs 44 true with
        | None => None
        | Some (true, _) => Some ([col], [ct], key, t)
        | Some (false, rs) =>
            match columnsLoop n (num + 1) t rs with
            | None => None
            | Some (cols, cts, keys, t) => Some (col :: cols, ct :: cts, key ++ keys, t)
            end
        end
    end.
  Proof.
    cbn [columnsLoop]. unfold one_column, optional_size, sized_type. destruct (expectIdent t rs) as [[[col t1] rs1]|]; [|reflexivity].
    destruct (expectIdent t1 rs1) as [[[typ t2] rs2]|]; [|reflexivity]. destruct (findColumnType typ) as [ct|]; [|reflexivity].
    destruct (match ct_type ct with StringType | BytesType => parseOptionalSize rs2 | _ => Some (None, rs2) end) as [[sz rs3]|]; [|reflexivity]. cbv zeta.
    destruct (columnWords _ num _ t2 rs3) as [[[[ct4 key4] t4] rs4]|]; reflexivity.
  Qed.

  Lemma null_type ct ct0 w sized o nn : length_text ct0 w ct sized -> In o type_names -> ct0 = snd o ->
    with_null ct nn = {| ct_type := ct_type ct; ct_size := ct_size ct; ct_fixed := ct_fixed ct; ct_notnull := nn |}.
  Proof.
    intros H I ->. assert (ct_notnull (snd o) = false) by (cbn in I; repeat (destruct I as [<-|I]; [reflexivity|]); contradiction).
    assert (ct_notnull ct = false) by (destruct H; assumption). destruct nn; [reflexivity|]. cbn [with_null]. destruct ct; cbn in *; congruence.
  Qed.

  Lemma flags_no_paren num apart w key nn f : flags_text num apart w key nn -> no_paren f -> no_paren (w ++ f).
  Proof.
    intros H N. destruct H as [apart|apart sp1 w1 sp2 w2 w key nn S1 _ [W1 _] _ _ _|apart sp1 w1 sp2 w2 w key nn S1 _ [W1 _] _ _ _]; [exact N|..];
      (rewrite <- !app_assoc; destruct (skip_word sp1 w1 (sp2 ++ w2 ++ w ++ f) S1 W1) as (r & w' & _ & Hr & E); unfold no_paren; rewrite E; cbn [fst]; intros ->; revert Hr; apply word_not; cbn; auto).
  Qed.

  Lemma column_complete num w name ct key : column_text num w name ct key -> forall t f la, real t -> column_end f ->
    exists rs, one_column num t {| r_ahead := w ++ f; r_last := la |} = Some (snd (ID t name false), ct, map (fun k => MakeColumnKey k false) key, fst (ID t name false), rs) /\
      skipLoop (r_ahead rs) = skipLoop f.
  Proof.
    intros (sp0 & w1 & sp1 & w2 & k & ct0 & w3 & ct1 & sized & w4 & nn & sp2 & -> & S0 & W1 & -> & [S1 N1] & [W2 M2] & Hk & Hl & Hf & S2 & ->) t f la R E.
    destruct (column_end_ok f E) as [E1 E2]. assert (Ef : skipLoop (sp2 ++ f) = skipLoop f) by now apply fst_skip_spaces.
    assert (E1' : no_word (sp2 ++ f)) by (unfold no_word; now rewrite Ef). assert (E2' : no_paren (sp2 ++ f)) by (unfold no_paren; now rewrite Ef).
    replace ((sp0 ++ w1 ++ sp1 ++ w2 ++ w3 ++ w4 ++ sp2) ++ f) with (sp0 ++ w1 ++ sp1 ++ w2 ++ w3 ++ w4 ++ sp2 ++ f) by (rewrite <- !app_assoc; reflexivity).
    unfold one_column.
    destruct (ident_complete t w1 (sp1 ++ w2 ++ w3 ++ w4 ++ sp2 ++ f) {| r_ahead := sp0 ++ w1 ++ sp1 ++ w2 ++ w3 ++ w4 ++ sp2 ++ f; r_last := la |} sp0 S0 W1) as [la1 K1];
      [apply breaks_spaces; [exact S1|contradiction]|reflexivity|]. rewrite K1. set (t1 := fst (ID t (encode w1) false)). assert (R1 : real t1) by (apply ID_grown; exact R).
    assert (B : breaks (w3 ++ w4 ++ sp2 ++ f)).
    { destruct Hl as [|sp1' sp2' ds sp3' i Ht S1' S2' S3' Nd Fd Hi Ri]; cbn [app]; [cbn [negb] in Hf; now apply (flags_breaks num w4 key nn)|].
      rewrite <- app_assoc. apply breaks_spaces; [exact S1'|]. intros _. cbn. apply word_not. cbn. auto. }
    destruct (ident_complete t1 w2 (w3 ++ w4 ++ sp2 ++ f) {| r_ahead := sp1 ++ w2 ++ w3 ++ w4 ++ sp2 ++ f; r_last := la1 |} sp1 S1 W2 B eq_refl) as [la2 K2].
    destruct (type_number k ct0 Hk) as (i & Ki & Fi). rewrite (keyword_number t1 _ k i R1 Ki M2) in K2. cbn [fst snd] in K2. rewrite K2, Fi.
    destruct (size_complete ct0 w3 ct1 sized Hl (w4 ++ sp2 ++ f) la2) as (o & rs3 & K3 & E3 & Es3); [intros ->; now apply (flags_no_paren num true w4 key nn)|]. rewrite K3.
    destruct (flags_complete num (negb sized) w4 key nn Hf t1 (sp2 ++ f) (sized_type ct0 o) rs3 (S (length (r_ahead rs3))) R1 E1' Es3) as (rs4 & K4 & Es4); [lia|].
    rewrite K4. exists rs4. split; [|now rewrite Es4]. rewrite <- E3. now rewrite (null_type ct1 ct0 w3 sized (k, ct0) nn Hl Hk eq_refl).
  Qed.

  Lemma column_sound num t rs i ct key t' rs' : real t -> one_column num t rs = Some (i, ct, key, t', rs') -> forall l sp', r_ahead rs' = sp' ++ l -> spaces sp' ->
    exists w name key', r_ahead rs = w ++ l /\ column_text num w name ct key' /\ key = map (fun k => MakeColumnKey k false) key' /\ ID t name false = (t', i).
  Proof.
    intros R. unfold one_column. destruct (expectIdent t rs) as [[[col t1] rs1]|] eqn:E1; [|discriminate]. apply ident_sound in E1 as (sp0 & w1 & E1 & S0 & W1 & B1 & I1).
    assert (R1 : real t1) by (pose proof (ID_grown t (encode w1) false R) as [K _]; rewrite I1 in K; exact K).
    destruct (expectIdent t1 rs1) as [[[typ t2] rs2]|] eqn:E2; [|discriminate]. apply ident_sound in E2 as (sp1 & w2 & E2 & S1 & W2 & B2 & I2).
    destruct (findColumnType typ) as [ct0|] eqn:Ft; [|discriminate]. destruct (number_type typ ct0 Ft) as (k & Kk & Kt). destruct (number_keyword t1 _ k typ t2 R1 Kk I2) as [M2 ->].
    destruct (optional_size ct0 rs2) as [[o rs3]|] eqn:E3; [|discriminate]. apply size_sound in E3 as (w3 & sized & sp3 & E3 & Hl & S3 & Hs & Hs'); [|exact B2].
    destruct (columnWords _ num _ t1 rs3) as [[[[ct4 key4] t4] rs4]|] eqn:E4; [|discriminate]. intros [= <- <- <- <- <-] l sp' El S'.
    destruct (flags_sound num _ t1 _ rs3 ct4 key4 t4 rs4 sp3 (sp3 ++ r_ahead rs3) (negb sized) R1 E4 eq_refl S3) as (w4 & key' & nn & sp4 & E5 & Hf & -> & -> & -> & S4).
    { destruct sized; [discriminate|]. intros _. rewrite (Hs' eq_refl) in E3. cbn [app] in E3. rewrite <- E3. exact B2. }
    exists (sp0 ++ w1 ++ sp1 ++ w2 ++ w3 ++ w4 ++ sp4 ++ sp'), (encode w1), key'. split; [rewrite E1, E2, E3, E5, El, <- !app_assoc; reflexivity|]. split; [|now split].
    exists sp0, w1, sp1, w2, k, ct0, w3, (sized_type ct0 o), sized, w4, nn, (sp4 ++ sp'). split; [reflexivity|]. split; [exact S0|]. split; [exact W1|]. split; [reflexivity|].
    split; [split; [exact S1|]; intros ->; rewrite E2 in B1; destruct (word_head w2 W2) as (r & w' & -> & Hr & _); exact (B1 Hr)|]. split; [now split|]. split; [exact Kt|]. split; [exact Hl|]. split; [exact Hf|].
    split; [apply Forall_app; now split|]. now rewrite (null_type _ ct0 w3 sized (k, ct0) nn Hl Kt eq_refl).
  Qed.

  Lemma column_nonempty num w n ct key : column_text num w n ct key -> (0 < length w)%nat.
  Proof. intros (sp0 & w1 & sp1 & w2 & k & ct0 & w3 & ct1 & sized & w4 & nn & sp2 & -> & _ & [N _] & _). destruct w1; [contradiction|]. rewrite !app_length. cbn. lia. Qed.

  Lemma columns_complete num w ns cts keys : columns_text num w ns cts keys -> forall n t la, real t -> (length w < n)%nat ->
    exists t', columnsLoop n num t {| r_ahead := w; r_last := la |} = Some (map (number t') ns, cts, map (fun k => MakeColumnKey k false) keys, t') /\
      grown t t' /\ Forall (fun n => knows t' n false) ns.
  Proof.
    assert (V : x_is_space 44 = false) by (apply punct_visible; exact HU).
    induction 1 as [num w name ct key Hc|num w name ct key w' ns cts keys Hc Hl IH]; intros n t la R Hn; (destruct n as [|n]; [lia|]); rewrite columnsLoop_step.
    - destruct (column_complete num w name ct key Hc t [] la R) as (rs & K & Es); [exact Logic.I|]. rewrite app_nil_r in K. rewrite K.
      assert (Ee : expectRune rs 44 true = Some (true, {| r_ahead := []; r_last := None |})) by (unfold expectRune, ModelTestutil.skipWhitespace; now rewrite Es). rewrite Ee.
      exists (fst (ID t name false)). split; [|split; [now apply ID_grown|repeat constructor; now apply ID_knows]]. cbn [map]. unfold number.
      now rewrite (ID_same t (fst (ID t name false)) name false R (grown_refl _ (proj1 (ID_grown t name false R)))).
    - destruct (column_complete num w name ct key Hc t (44 :: w') la R) as (rs & K & Es); [unfold column_end; cbn [skipLoop]; rewrite V; reflexivity|]. rewrite K.
      assert (Ee : expectRune rs 44 true = Some (false, {| r_ahead := w'; r_last := Some 44 |})) by (unfold expectRune, ModelTestutil.skipWhitespace; rewrite Es; cbn [skipLoop]; rewrite V; reflexivity). rewrite Ee.
      pose proof (ID_grown t name false R) as G1. destruct (IH n (fst (ID t name false)) (Some 44)) as (t' & Kr & G & F); [exact (proj1 G1)|rewrite app_length in Hn; cbn [length] in Hn; lia|].
      rewrite Kr. exists t'. split; [|split; [eapply grown_trans; [exact G1|exact G]|]].
      + cbn [map]. change (number t' name) with (snd (ID t' name false)). rewrite (ID_same t t' name false R G). cbn [snd]. now rewrite map_app.
      + constructor; [|exact F]. unfold knows. now rewrite (ID_same t t' name false R G).
  Qed.

  Lemma columns_sound n : forall num t rs cols cts keys t', real t -> columnsLoop n num t rs = Some (cols, cts, keys, t') ->
    exists ns keys', columns_text num (r_ahead rs) ns cts keys'.
  Proof.
    induction n as [|n IH]; intros num t rs cols cts keys t' R; [discriminate|]. rewrite columnsLoop_step.
    destruct (one_column num t rs) as [[[[[i ct] key] t1] rs1]|] eqn:E1; [|discriminate].
    destruct (expectRune rs1 44 true) as [[e rs2]|] eqn:E2; [|discriminate]. apply expect_sound in E2 as [(-> & sp & E2 & S1 & _)|(_ & -> & S1)].
    - destruct (column_sound num t rs i ct key t1 rs1 R E1 (44 :: r_ahead rs2) sp E2 S1) as (w & name & key' & Ew & Hc & _ & I1).
      destruct (columnsLoop n (num + 1) t1 rs2) as [[[[cols' cts'] keys'] t2]|] eqn:E3; [|discriminate]. intros [= <- <- <- <-].
      assert (R1 : real t1) by (pose proof (ID_grown t name false R) as [K _]; rewrite I1 in K; exact K).
      destruct (IH _ _ _ _ _ _ _ R1 E3) as (ns & keys'' & Hcs). exists (name :: ns), (key' ++ keys''). rewrite Ew. now constructor.
    - destruct (column_sound num t rs i ct key t1 rs1 R E1 [] (r_ahead rs1)) as (w & name & key' & Ew & Hc & _ & I1); [now rewrite app_nil_r|exact S1|].
      intros [= <- <- <- <-]. exists [name], key'. rewrite Ew, app_nil_r. now constructor.
  Qed.

  Lemma ParseColumns_complete t text ns cts keys : real t -> columns_text 0 text ns cts keys ->
    exists t', ParseColumns t text = Some (map (number t') ns, cts, map (fun k => MakeColumnKey k false) keys, t') /\
      real t' /\ later t t' /\ Forall (fun n => knows t' n false) ns.
  Proof.
    intros R H. destruct (columns_complete 0 text ns cts keys H (S (length text)) t None R) as (t' & E & G & F); [lia|]. exists t'. split; [exact E|]. split; [apply G|]. split; [now apply grown_later|exact F].
  Qed.
  Lemma ParseColumns_sound t text r : real t -> ParseColumns t text = Some r -> exists ns cts keys, columns_text 0 text ns cts keys.
  Proof. intros R H. destruct r as [[[cols cts] keys] t']. destruct (columns_sound _ _ _ _ _ _ _ _ R H) as (ns & keys' & K). now exists ns, cts, keys'. Qed.

  (** What columns of a text have in common. *)
  Lemma columns_shape num w ns cts keys : columns_text num w ns cts keys -> length ns = length cts /\ Forall (fun k => num <= k < num + Z.of_nat (length ns)) keys.
  Proof.
    assert (Fl : forall num apart w key nn, flags_text num apart w key nn -> Forall (fun k => k = num) key) by (induction 1; auto).
    induction 1 as [num w name ct key Hc|num w name ct key w' ns cts keys Hc Hl [IH1 IH2]];
      destruct Hc as (sp0 & w1 & sp1 & w2 & k & ct0 & w3 & ct1 & sized & w4 & nn & sp2 & -> & _ & _ & _ & _ & _ & _ & _ & Hf & _); apply Fl in Hf; cbn [length]; (split; [lia|]).
    - revert Hf. apply Forall_impl. lia.
    - apply Forall_app. split; [revert Hf|revert IH2]; apply Forall_impl; intros; lia.
  Qed.

  (** ** Names *)

  Lemma names_complete w ns : names_text w ns -> forall n t la, real t -> (length w < n)%nat ->
    exists t', parseIdentsLoop n t {| r_ahead := w; r_last := la |} = Some (map (number t') ns, t') /\ grown t t' /\ Forall (fun n => knows t' n false) ns.
  Proof.
    assert (V : x_is_space 44 = false) by (apply punct_visible; exact HU).
    induction 1 as [sp1 w sp2 S1 W S2|sp1 w sp2 w' ns S1 W S2 Hl IH]; intros n t la R Hn; (destruct n as [|n]; [lia|]); cbn [parseIdentsLoop].
    - destruct (ident_complete t w sp2 {| r_ahead := sp1 ++ w ++ sp2; r_last := la |} sp1 S1 W) as [la1 K]; [rewrite <- (app_nil_r sp2); apply breaks_spaces; [exact S2|constructor]|reflexivity|].
      rewrite K, expect_end by exact S2. exists (fst (ID t (encode w) false)). split; [|split; [now apply ID_grown|repeat constructor; now apply ID_knows]]. cbn [map]. unfold number.
      now rewrite (ID_same t (fst (ID t (encode w) false)) (encode w) false R (grown_refl _ (proj1 (ID_grown t (encode w) false R)))).
    - destruct (ident_complete t w (sp2 ++ 44 :: w') {| r_ahead := sp1 ++ w ++ sp2 ++ 44 :: w'; r_last := la |} sp1 S1 W) as [la1 K]; [apply breaks_spaces; [exact S2|intros _; cbn; apply word_not; cbn; auto]|reflexivity|].
      rewrite K, expect_spaces by assumption. pose proof (ID_grown t (encode w) false R) as G1.
      destruct (IH n (fst (ID t (encode w) false)) (Some 44)) as (t' & Kr & G & F); [exact (proj1 G1)|rewrite !app_length in Hn; cbn [length] in Hn; lia|].
      rewrite Kr. exists t'. split; [|split; [eapply grown_trans; [exact G1|exact G]|]].
      + cbn [map]. change (number t' (encode w)) with (snd (ID t' (encode w) false)). rewrite (ID_same t t' (encode w) false R G). reflexivity.
      + constructor; [|exact F]. unfold knows. now rewrite (ID_same t t' (encode w) false R G).
  Qed.
  Lemma names_sound n : forall t rs ids t', real t -> parseIdentsLoop n t rs = Some (ids, t') -> exists ns, names_text (r_ahead rs) ns.
  Proof.
    induction n as [|n IH]; intros t rs ids t' R; cbn [parseIdentsLoop]; [discriminate|].
    destruct (expectIdent t rs) as [[[i t1] rs1]|] eqn:E1; [|discriminate]. apply ident_sound in E1 as (sp1 & w & E1 & S1 & W & _ & I1).
    assert (R1 : real t1) by (pose proof (ID_grown t (encode w) false R) as [K _]; rewrite I1 in K; exact K).
    destruct (expectRune rs1 44 true) as [[e rs2]|] eqn:E2; [|discriminate]. apply expect_sound in E2 as [(-> & sp & E2 & S2 & _)|(_ & -> & S2)].
    - destruct (parseIdentsLoop n t1 rs2) as [[ids' t2]|] eqn:E3; [|discriminate]. intros [= <- <-]. destruct (IH _ _ _ _ R1 E3) as [ns Hn]. exists (encode w :: ns). rewrite E1, E2. now constructor.
    - intros [= <- <-]. exists [encode w]. rewrite E1. now constructor.
  Qed.
  Lemma ParseIdentifiers_complete t text ns : real t -> names_text text ns ->
    exists t', ParseIdentifiers t text = Some (map (number t') ns, t') /\ real t' /\ later t t' /\ Forall (fun n => knows t' n false) ns.
  Proof.
    intros R H. destruct (names_complete text ns H (S (length text)) t None R) as (t' & E & G & F); [lia|]. exists t'. split; [exact E|]. split; [apply G|]. split; [now apply grown_later|exact F].
  Qed.
  Lemma ParseIdentifiers_sound t text r : real t -> ParseIdentifiers t text = Some r -> exists ns, names_text text ns.
  Proof. intros R H. destruct r as [ids t']. exact (names_sound _ _ _ _ _ R H). Qed.
  Lemma ParseIdentifier_iff t text i t' f : (exists la, ParseIdentifier t text = Some (i, t', {| r_ahead := f; r_last := la |})) <->
    exists sp w, text = sp ++ w ++ f /\ spaces sp /\ word w /\ match f with [] => True | r :: _ => ~ word_rune r end /\ ID t (encode w) false = (t', i).
  Proof.
    split.
    - intros [la H]. apply ident_sound in H. exact H.
    - intros (sp & w & -> & S1 & W & B & E). destruct (ident_complete t w f (newReader (sp ++ w ++ f)) sp S1 W B eq_refl) as [la K]. exists la. rewrite E in K. exact K.
  Qed.
End Columns.
