(** What is printed for an expression is read back. *)

From Verif Require Import ModelPrint SpecPrint LemmasBase LemmasValue LemmasScanner LemmasIdent LemmasGrammarLink LemmasPieces.

Lemma keyword_found w i : lookup_bytes keywords w = Some i -> In (w, i) keywords.
Proof.
  generalize keywords. intros l. induction l as [|[k v] l IH]; [discriminate|]. cbn [lookup_bytes]. destruct (bytes_eqb k w) eqn:E; [|intros H; right; now apply IH].
  intros [= ->]. left. apply bytes_eqb_eq in E. now subst.
Qed.
Ltac is_reserved := split; [vm_compute; reflexivity|]; split; [discriminate|]; split; [apply keyword_found; vm_compute; reflexivity|]; split; reflexivity.

Section Print.
  Context {X : FloatLib} {L : CaseLib} {U : RuneLib} {P : PrintLib}.
  Context (HU : RuneLib_scan U) (HL : CaseLib_ok L).

  Lemma keyword_id T w i s : real T -> In (w, i) keywords -> same_but_case s w -> ID T s false = (T, i).
  Proof.
    intros R K S. assert (Kw : In w (reserved_words ++ nonreserved_words)) by (apply keywords_words, in_map_iff; now exists (w, i)).
    apply (ID_in T s false (Keyword w)); [exact R|now apply keyword_any_case|]. unfold entries. apply in_or_app. right. apply in_map_iff. now exists (w, i).
  Qed.

  Lemma keyword_text T w i : real T -> In (w, i) keywords -> idString T i = w.
  Proof.
    intros R K. rewrite (idString_entry T (Keyword w) i); [reflexivity|now apply real_ok|]. unfold entries. apply in_or_app. right. apply in_map_iff. now exists (w, i).
  Qed.

  Definition word_piece (s : String.string) : piece := PName (map bz (str s)).

  Definition ok (T : idtable) (ps : list piece) (ts : list tok) : Prop :=
    Forall good ps /\ loose ps /\ Forall2 (token_in T) (ptokens ps) ts.

  Lemma ptexts_app a b : ptexts (a ++ b) = ptexts a ++ ptexts b.
  Proof. apply flat_map_app. Qed.
  Lemma ptokens_app a b : ptokens (a ++ b) = ptokens a ++ ptokens b.
  Proof. apply flat_map_app. Qed.

  Lemma simple_piece T i : simple T i -> exists w, idString T i = encode w /\ good (PName w) /\ token_in T (TName (encode w) false) (KIdent i).
  Proof.
    intros (N & E & r & w & Es & H1 & H2 & H3). exists (r :: w). split; [exact Es|]. split; [now exists r, w|]. apply ti_name; [now rewrite <- Es|exact N].
  Qed.

  (** No space at either end. *)
  Definition solid (ps : list piece) : Prop := ~ spaced ps /\ forall a, ps <> a ++ [PSpace].
  Lemma solid_one p : p <> PSpace -> solid [p].
  Proof. intros N. split; [now destruct p|]. intros [|q a] E; [now injection E|]. injection E as _ E. destruct a; discriminate. Qed.
  Lemma solid_app a b : solid a -> solid b -> b <> [] -> solid (a ++ b).
  Proof.
    intros [A1 A2] [B1 B2] N. split; [destruct a; assumption|]. intros c E. destruct b as [|q b _] using rev_ind; [contradiction|].
    rewrite app_assoc in E. apply app_inj_tail in E. destruct E as [_ ->]. exact (B2 b eq_refl).
  Qed.
  Lemma solid_wrap p a q : p <> PSpace -> q <> PSpace -> solid (p :: a ++ [q]).
  Proof.
    intros N1 N2. split; [now destruct p|]. intros c E. change (p :: a ++ [q]) with ((p :: a) ++ [q]) in E. apply app_inj_tail in E. destruct E as [_ ->]. contradiction.
  Qed.

  Lemma ok_nil T : ok T [] [].
  Proof. repeat split; constructor. Qed.
  Lemma ok_app T a b ta tb : ok T a ta -> ok T b tb -> stops b -> b <> [] -> ~ dotted b -> (forall c, a <> c ++ [PSpace]) -> ok T (a ++ b) (ta ++ tb).
  Proof.
    intros (A1 & A2 & A3) (B1 & B2 & B3) S N D K. split; [now apply Forall_app|]. split; [apply loose_app; auto|]. rewrite ptokens_app. now apply Forall2_app.
  Qed.
  Lemma ok_space T a ta : ok T a ta -> ~ spaced a -> ok T (PSpace :: a) ta.
  Proof. intros (A1 & A2 & A3) N. split; [constructor; [exact Logic.I|assumption]|]. split; [now split|exact A3]. Qed.
  Lemma ok_punct T r a ta : In r [46; 44; 40; 41; 64] -> ok T a ta -> ok T (PPunct r :: a) (KRune r :: ta).
  Proof. intros Hr (A1 & A2 & A3). split; [now constructor|]. split; [now split|]. constructor; [constructor|exact A3]. Qed.
  Lemma ok_op T w t a ta : op_text w t -> ok T a ta -> stops a -> a <> [] -> ok T (POp w t :: a) (KRune t :: ta).
  Proof. intros Hr (A1 & A2 & A3) S N. split; [now constructor|]. split; [split; [split; [exact S|intros E; contradiction]|exact A2]|]. constructor; [constructor|exact A3]. Qed.
  Lemma ok_name T w i a ta : good (PName w) -> token_in T (TName (encode w) false) (KIdent i) -> ok T a ta -> stops a -> ok T (PName w :: a) (KIdent i :: ta).
  Proof. intros Hg Ht (A1 & A2 & A3) S. split; [now constructor|]. split; [now split|]. constructor; [exact Ht|exact A3]. Qed.

  Lemma word_good s : forallb (fun b => (65 <=? bz b) && (bz b <=? 90) || (97 <=? bz b) && (bz b <=? 122)) (str s) = true -> str s <> [] -> good (word_piece s).
  Proof.
    intros H N. unfold word_piece, good. rewrite forallb_forall in H.
    assert (K : forall b, In b (str s) -> x_is_letter (bz b) = true /\ scalar (bz b)).
    { intros b Hb. specialize (H b Hb). apply orb_prop in H. rewrite !andb_true_iff, !Z.leb_le in H. split; [|unfold scalar; lia].
      destruct HU as (HA & _). apply HA; lia. }
    destruct (str s) as [|b l]; [contradiction|]. cbn [map]. exists (bz b), (map bz l). split; [reflexivity|]. split; [left; apply K; now left|]. split.
    - apply Forall_forall. intros r Hr. apply in_map_iff in Hr. destruct Hr as (c & <- & Hc). left. apply K. now right.
    - apply Forall_forall. intros r [<-|Hr]; [apply K; now left|]. apply in_map_iff in Hr. destruct Hr as (c & <- & Hc). apply K. now right.
  Qed.

  (** A reserved word, in any case of letters. *)
  Definition reserved_as (s w : String.string) (i : Z) : Prop :=
    forallb (fun b => (65 <=? bz b) && (bz b <=? 90) || (97 <=? bz b) && (bz b <=? 122)) (str s) = true /\ str s <> [] /\
    In (str w, i) keywords /\ same_but_case (str s) (str w) /\ i < 0.
  Lemma word_ascii s : forallb (fun b => (65 <=? bz b) && (bz b <=? 90) || (97 <=? bz b) && (bz b <=? 122)) (str s) = true -> Forall is_ascii (str s).
  Proof.
    rewrite forallb_forall. intros H. apply Forall_forall. intros b Hb. specialize (H b Hb). apply orb_prop in H. rewrite !andb_true_iff, !Z.leb_le in H. unfold is_ascii. lia.
  Qed.
  Lemma ok_word T s w i a ta : real T -> reserved_as s w i -> ok T a ta -> stops a -> ok T (word_piece s :: a) (KReserved i :: ta).
  Proof.
    intros R (W1 & W2 & W3 & W4 & W5) (A1 & A2 & A3) S. split; [constructor; [now apply word_good|exact A1]|]. split; [now split|]. constructor; [|exact A3].
    cbn. rewrite encode_ascii by now apply word_ascii. apply ti_word; [now apply (keyword_id T (str w))|exact W5].
  Qed.

  Lemma enc_cons p a : encode (ptexts (p :: a)) = encode (ptext p) ++ encode (ptexts a).
  Proof. unfold ptexts. cbn [flat_map]. apply encode_app. Qed.
  Lemma enc_app a b : encode (ptexts (a ++ b)) = encode (ptexts a) ++ encode (ptexts b).
  Proof. rewrite ptexts_app. apply encode_app. Qed.
  Lemma enc_word s : forallb (fun b => (65 <=? bz b) && (bz b <=? 90) || (97 <=? bz b) && (bz b <=? 122)) (str s) = true -> encode (ptext (word_piece s)) = str s.
  Proof. intros H. apply encode_ascii, word_ascii, H. Qed.

  (** The operators between operands. *)
  Definition op_piece (op : sqlop) : piece :=
    match op with
    | AddOp => POp [43] 43
    | AndOp => word_piece "AND"
    | BinaryAndOp => POp [38] 38
    | BinaryOrOp => POp [124] 124
    | ConcatOp => POp [124; 124] (-11)
    | DivideOp => POp [47] 47
    | EqualOp => POp [61; 61] (-17)
    | GreaterEqualOp => POp [62; 61] (-16)
    | GreaterThanOp => POp [62] 62
    | LessEqualOp => POp [60; 61] (-13)
    | LessThanOp => POp [60] 60
    | LShiftOp => POp [60; 60] (-12)
    | ModuloOp => POp [37] 37
    | MultiplyOp => POp [42] 42
    | NegateOp | SubtractOp => POp [45] 45
    | NoOp => PSpace
    | NotEqualOp => POp [33; 61] (-18)
    | NotOp => word_piece "NOT"
    | OrOp => word_piece "OR"
    | RShiftOp => POp [62; 62] (-15)
    end.
  Definition op_tok (op : sqlop) : tok :=
    match op with
    | AndOp => KReserved kAND
    | OrOp => KReserved kOR
    | NotOp => KReserved kNOT
    | op => match op_piece op with POp _ t => KRune t | _ => KEnd end
    end.

  Lemma ok_operator T op a ta : op <> NoOp -> real T -> ok T a ta -> stops a -> a <> [] -> ok T (op_piece op :: a) (op_tok op :: ta).
  Proof.
    intros N R A S E.
    assert (W : forall s w i, reserved_as s w i -> ok T (word_piece s :: a) (KReserved i :: ta)) by (intros; eapply ok_word; eassumption).
    destruct op; try contradiction; cbn [op_tok op_piece];
      first [apply ok_op; [first [left; eexists; split; [reflexivity|split; [reflexivity|unfold op_rune; cbn; tauto]]|right; do 2 eexists; split; [reflexivity|cbn; tauto]]|assumption..]
            |lazymatch goal with |- ok _ (word_piece ?s :: _) _ => apply (W s s) end; is_reserved].
  Qed.
  Lemma enc_op op : op <> NoOp -> encode (ptext (op_piece op)) = opName op.
  Proof. destruct op; intros N; try contradiction; reflexivity. Qed.
  Lemma op_infix op : ~ In op [NoOp; NotOp; NegateOp] -> exists b, In (op_tok op, op, b) infix_tokens.
  Proof. cbn [In]. intros N. destruct op; try (exfalso; tauto); cbn; first [exists true; tauto|exists false; tauto]. Qed.

  (** ** Texts without a space at either end, and what may follow them *)

  Definition chunk (T : idtable) (s : bytes) (ts : list tok) : Prop :=
    exists ps, s = encode (ptexts ps) /\ ok T ps ts /\ solid ps /\ ps <> [].
  Definition after (T : idtable) (s : bytes) (ts : list tok) : Prop :=
    exists ps, s = encode (ptexts ps) /\ ok T ps ts /\ stops ps /\ ~ dotted ps /\ forall c, ps <> c ++ [PSpace].

  Lemma no_space_end a b : (forall c, b <> c ++ [PSpace]) -> b <> [] -> forall c, a ++ b <> c ++ [PSpace].
  Proof.
    intros B N c E. destruct b as [|q b _] using rev_ind; [contradiction|]. rewrite app_assoc in E. apply app_inj_tail in E. destruct E as [_ ->]. exact (B b eq_refl).
  Qed.
  Lemma ok_empty T ts : ok T [] ts -> ts = [].
  Proof. intros (_ & _ & F). now inversion F. Qed.

  Section Chunks.
    Variable T : idtable.
    Hypothesis R : real T.

    Lemma c_after s ts s' ts' : chunk T s ts -> after T s' ts' -> chunk T (s ++ s') (ts ++ ts').
    Proof.
      intros (a & -> & A & [S1 S2] & N) (b & -> & B & B1 & B2 & B3). destruct b as [|q b].
      - apply ok_empty in B. subst ts'. cbn [ptexts flat_map encode]. rewrite !app_nil_r. now exists a.
      - exists (a ++ q :: b). split; [now rewrite enc_app|]. split; [apply ok_app; try assumption; discriminate|]. split; [|now destruct a].
        split; [now destruct a|]. apply no_space_end; [exact B3|discriminate].
    Qed.
    Lemma a_app s ts s' ts' : after T s ts -> after T s' ts' -> after T (s ++ s') (ts ++ ts').
    Proof.
      intros (a & -> & A & S1 & S2 & S3) (b & -> & B & B1 & B2 & B3). destruct b as [|q b].
      - apply ok_empty in B. subst ts'. cbn [ptexts flat_map encode]. rewrite !app_nil_r. now exists a.
      - exists (a ++ q :: b). split; [now rewrite enc_app|]. split; [apply ok_app; try assumption; discriminate|].
        split; [now destruct a|]. split; [now destruct a|]. apply no_space_end; [exact B3|discriminate].
    Qed.
    Lemma a_nil : after T [] [].
    Proof. exists []. split; [reflexivity|]. split; [apply ok_nil|]. split; [exact Logic.I|]. split; [exact (fun H => H)|]. now intros [|? ?]. Qed.
    Lemma a_space s ts : chunk T s ts -> after T (str " " ++ s) ts.
    Proof.
      intros (a & -> & A & [S1 S2] & N). exists (PSpace :: a). split; [now rewrite enc_cons|]. split; [now apply ok_space|]. split; [exact Logic.I|]. split; [exact (fun H => H)|].
      apply (no_space_end [PSpace]); assumption.
    Qed.
    Lemma a_punct r s ts : In r [44; 40; 41; 64] -> after T s ts -> after T (utf8_encode r ++ s) (KRune r :: ts).
    Proof.
      intros Hr (a & -> & A & S1 & S2 & S3). exists (PPunct r :: a). split; [rewrite enc_cons; cbn [ptext encode flat_map]; now rewrite app_nil_r|]. split; [apply ok_punct; [cbn in *; tauto|exact A]|]. split; [exact Logic.I|].
      split; [cbn in Hr |- *; lia|]. destruct a as [|q a]; [intros [|x [|y c]]; discriminate|]. apply (no_space_end [PPunct r]); [exact S3|discriminate].
    Qed.
    Lemma a_punct_chunk r s ts : In r [44; 40; 41; 64] -> chunk T s ts -> after T (utf8_encode r ++ s) (KRune r :: ts).
    Proof.
      intros Hr (a & -> & A & [S1 S2] & N). exists (PPunct r :: a). split; [rewrite enc_cons; cbn [ptext encode flat_map]; now rewrite app_nil_r|]. split; [apply ok_punct; [cbn in *; tauto|exact A]|]. split; [exact Logic.I|].
      split; [cbn in Hr |- *; lia|]. apply (no_space_end [PPunct r]); assumption.
    Qed.
    Lemma a_rp s ts : after T s ts -> after T (str ")" ++ s) (KRune 41 :: ts).
    Proof. apply (a_punct 41). cbn; tauto. Qed.
    Lemma a_lprp s ts : after T s ts -> after T (str "()" ++ s) (KRune 40 :: KRune 41 :: ts).
    Proof. intros A. apply (a_punct 40 (str ")" ++ s)); [cbn; tauto|]. now apply a_rp. Qed.
    Lemma a_lp s ts s' ts' : chunk T s ts -> after T s' ts' -> after T (str "(" ++ s ++ str ")" ++ s') (KRune 40 :: ts ++ KRune 41 :: ts').
    Proof. intros C A. apply (a_punct_chunk 40 (s ++ str ")" ++ s')); [cbn; tauto|]. apply c_after; [exact C|]. now apply a_rp. Qed.
    Lemma a_at s ts : chunk T s ts -> after T (str "@" ++ s) (KRune 64 :: ts).
    Proof. apply (a_punct_chunk 64). cbn; tauto. Qed.
    Lemma a_comma s ts : chunk T s ts -> after T (str ", " ++ s) (KRune 44 :: ts).
    Proof.
      intros C. destruct (a_space _ _ C) as (a & E & A & S1 & S2 & S3). exists (PPunct 44 :: a). split; [rewrite enc_cons, <- E; reflexivity|].
      split; [apply ok_punct; [cbn; tauto|exact A]|]. split; [exact Logic.I|]. split; [cbn; lia|]. destruct a as [|q a]; [discriminate E|]. apply (no_space_end [PPunct 44]); [exact S3|discriminate].
    Qed.
    Lemma c_paren s ts : chunk T s ts -> chunk T (str "(" ++ s ++ str ")") (KRune 40 :: ts ++ [KRune 41]).
    Proof.
      intros (a & -> & A & [S1 S2] & N). exists (PPunct 40 :: a ++ [PPunct 41]). split; [now rewrite enc_cons, enc_app|]. split; [|split; [now apply solid_wrap|discriminate]].
      apply ok_punct; [cbn; tauto|]. apply ok_app; [exact A|apply ok_punct; [cbn; tauto|apply ok_nil]|exact Logic.I|discriminate|cbn; lia|exact S2].
    Qed.
    Lemma c_space s ts s' ts' : chunk T s ts -> chunk T s' ts' -> chunk T (s ++ str " " ++ s') (ts ++ ts').
    Proof. intros C C'. apply c_after; [exact C|now apply a_space]. Qed.
    Lemma c_one p t : ok T [p] [t] -> p <> PSpace -> chunk T (encode (ptext p)) [t].
    Proof. intros A N. exists [p]. split; [rewrite enc_cons; cbn; now rewrite app_nil_r|]. split; [exact A|]. split; [now apply solid_one|discriminate]. Qed.
    Lemma c_word s w i : reserved_as s w i -> chunk T (str s) [KReserved i].
    Proof. intros H. rewrite <- (enc_word s) by apply H. apply c_one; [|discriminate]. apply (ok_word T s w); [exact R|exact H|apply ok_nil|exact Logic.I]. Qed.
    (** A word that is not reserved. *)
    Lemma c_ident s w i : forallb (fun b => (65 <=? bz b) && (bz b <=? 90) || (97 <=? bz b) && (bz b <=? 122)) (str s) = true -> str s <> [] ->
      In (str w, i) keywords -> same_but_case (str s) (str w) -> 0 <= i -> chunk T (str s) [KIdent i].
    Proof.
      intros W1 W2 W3 W4 W5. rewrite <- (enc_word s) by exact W1. apply c_one; [|discriminate]. apply ok_name; [now apply word_good| |apply ok_nil|exact Logic.I].
      rewrite encode_ascii by now apply word_ascii. apply ti_name; [now apply (keyword_id T (str w))|exact W5].
    Qed.
    Lemma c_name i : simple T i -> chunk T (idString T i) [KIdent i].
    Proof. intros H. destruct (simple_piece T i H) as (w & -> & G & Ti). apply (c_one (PName w)); [|discriminate]. apply ok_name; [exact G|exact Ti|apply ok_nil|exact Logic.I]. Qed.
    Lemma c_dots l : forall i, Forall (simple T) (i :: l) -> exists ts, chunk T (idString T i ++ flat_map (fun j => str "." ++ idString T j) l) (KIdent i :: ts) /\ dots l ts.
    Proof.
      induction l as [|j l IH]; intros i F; inversion F as [|? ? Hi Hl]; subst; destruct (simple_piece T i Hi) as (w & Ew & G & Ti).
      - exists []. split; [|constructor]. cbn [flat_map]. rewrite app_nil_r. now apply c_name.
      - destruct (IH j Hl) as (ts & (a & E & A & [S1 S2] & N) & D). exists (KRune 46 :: KIdent j :: ts). split; [|now constructor].
        exists (PName w :: PPunct 46 :: a). split; [rewrite !enc_cons, <- E, Ew; cbn [flat_map]; rewrite <- !app_assoc; reflexivity|].
        split; [apply ok_name; [exact G|exact Ti| |exact Logic.I]; apply ok_punct; [cbn; tauto|exact A]|]. split; [|discriminate]. split; [exact (fun H => H)|]. now apply (no_space_end [PName w; PPunct 46]).
    Qed.
    Lemma c_int i : - 2 ^ 63 < i < 2 ^ 63 -> chunk T (format_int i) [KInteger i].
    Proof.
      intros Hi. rewrite <- (encode_ascii (format_int i)) by (apply format_int_ascii; unfold is_i64; lia). apply (c_one (PNum i)); [|discriminate].
      repeat split; try (constructor; [|constructor]); cbn; try tauto; constructor.
    Qed.
    Lemma c_float p : plain_float p -> chunk T (x_print_float p) [KFloat p].
    Proof.
      intros (minus & w & v & q & -> & H1 & H2 & H3 & H4 & ->). apply (c_one (PFloat minus w v q)); [|discriminate].
      repeat split; try (constructor; [|constructor]); cbn; try tauto; constructor.
    Qed.
    Lemma c_string w : Forall scalar w -> ~ In 39 w -> chunk T (str "'" ++ encode w ++ str "'") [KString (encode w)].
    Proof.
      intros Hw N. replace (str "'" ++ encode w ++ str "'") with (encode (ptext (PStr w))) by (cbn [ptext]; change (39 :: w ++ [39]) with ([39] ++ w ++ [39]); now rewrite !encode_app). apply c_one; [|discriminate].
      repeat split; try (constructor; [|constructor]); cbn; try tauto; constructor.
    Qed.
    Lemma c_op op s ts : op <> NoOp -> chunk T s ts -> chunk T (opName op ++ str " " ++ s) (op_tok op :: ts).
    Proof.
      intros No (a & -> & A & [S1 S2] & N). exists (op_piece op :: PSpace :: a). split; [rewrite !enc_cons, enc_op by exact No; reflexivity|].
      split; [apply ok_operator; [exact No|exact R|now apply ok_space|exact Logic.I|discriminate]|]. split; [|discriminate]. split; [destruct op; try contradiction; exact (fun H => H)|].
      now apply (no_space_end [op_piece op; PSpace]).
    Qed.
    Lemma c_eq s ts : chunk T s ts -> chunk T (str "= " ++ s) (KRune 61 :: ts).
    Proof.
      intros (a & -> & A & [S1 S2] & N). exists (POp [61] 61 :: PSpace :: a). split; [rewrite !enc_cons; reflexivity|].
      split; [apply ok_op; [left; exists 61; repeat split; cbn; tauto|now apply ok_space|exact Logic.I|discriminate]|]. split; [|discriminate]. split; [exact (fun H => H)|].
      now apply (no_space_end [POp [61] 61; PSpace]).
    Qed.
    Lemma ok_star : ok T [POp [42] 42] [KRune 42].
    Proof.
      split; [constructor; [left; exists 42; repeat split; cbn; tauto|constructor]|]. split; [split; [split; [exact Logic.I|reflexivity]|exact Logic.I]|]. constructor; constructor.
    Qed.
    Lemma c_star : chunk T (str "*") [KRune 42].
    Proof. apply (c_one (POp [42] 42)); [exact ok_star|discriminate]. Qed.
    Lemma c_all i : simple T i -> chunk T (idString T i ++ str ".*") [KIdent i; KRune 46; KRune 42].
    Proof.
      intros Hi. destruct (simple_piece T i Hi) as (w & -> & G & Ti). exists [PName w; PPunct 46; POp [42] 42]. split; [now rewrite !enc_cons|].
      split; [apply ok_name; [exact G|exact Ti| |exact Logic.I]; apply ok_punct; [cbn; tauto|exact ok_star]|]. split; [|discriminate]. now apply (solid_wrap (PName w) [PPunct 46] (POp [42] 42)).
    Qed.

    (** Elements with commas between them. *)
    Inductive listed {A B : Type} (G : A -> B -> list tok -> Prop) : list A -> list B -> list tok -> Prop :=
    | li_one a b ts : G a b ts -> listed G [a] [b] ts
    | li_more a b ts l l' ts' : G a b ts -> listed G l l' ts' -> listed G (a :: l) (b :: l') (ts ++ KRune 44 :: ts').
    Lemma commas_back {A B : Type} (pr : A -> printed) (G : A -> B -> list tok -> Prop) l :
      Forall (fun a => exists s ts b, pr a = PText s /\ chunk T s ts /\ G a b ts) l -> l <> [] ->
      exists s ts l', commas (map pr l) = PText s /\ chunk T s ts /\ listed G l l' ts.
    Proof.
      induction 1 as [|a l (s & ts & b & E & C & H) F IH]; intros N; [contradiction|]. destruct l as [|a' l].
      - exists s, ts, [b]. split; [exact E|]. split; [exact C|now constructor].
      - destruct (IH ltac:(discriminate)) as (s' & ts' & l' & E' & C' & H'). exists (s ++ str ", " ++ s'), (ts ++ KRune 44 :: ts'), (b :: l').
        split; [change (commas (map pr (a :: a' :: l))) with (writes [pr a; PText (str ", "); commas (map pr (a' :: l))]); rewrite E, E'; cbn [writes]; now rewrite app_nil_r|].
        split; [apply c_after; [exact C|now apply a_comma]|now constructor].
    Qed.

    Lemma names_back l : Forall (simple T) l -> l <> [] -> exists s ts, idCommas T l = PText s /\ chunk T s ts /\ names l ts.
    Proof.
      intros F N. destruct (commas_back (fun i => PText (idString T i)) (fun i i' ts => i' = i /\ ts = [KIdent i]) l) as (s & ts & l' & E & C & Li); [|exact N|].
      - apply Forall_forall. intros i Hi. exists (idString T i), [KIdent i], i. split; [reflexivity|]. split; [|now split]. apply c_name. rewrite Forall_forall in F. now apply F.
      - exists s, ts. split; [exact E|]. split; [exact C|]. clear - Li. induction Li as [i i' ts [-> ->]|i i' ts l l' ts' [-> ->] Li IH]; [constructor|]. cbn [app]. now constructor.
    Qed.
    (** Names in parentheses behind a space, or nothing. *)
    Lemma opt_names_back l : Forall (simple T) l ->
      exists s ts, match l with [] => PText [] | _ => writes [PText (str " ("); idCommas T l; PText (str ")")] end = PText s /\ after T s ts /\ opt_names l ts.
    Proof.
      intros F. destruct l as [|i l]; [exists [], []; split; [reflexivity|]; split; [apply a_nil|constructor]|].
      destruct (names_back (i :: l) F ltac:(discriminate)) as (s & ts & E & C & N). exists (str " " ++ str "(" ++ s ++ str ")"), (KRune 40 :: ts ++ [KRune 41]).
      split; [now rewrite E|]. split; [now apply a_space, c_paren|now constructor].
    Qed.

    Lemma table_back tn : plain_table T tn -> exists ts, chunk T (tableString T tn) ts /\ table_name tn ts.
    Proof.
      intros (D & S & Tb & K). destruct tn as [d s t]. cbn [tn_database tn_schema tn_table] in *. unfold tableString. cbn [tn_database tn_schema tn_table].
      assert (Two : simple T s -> exists ts, chunk T (idString T s ++ str "." ++ idString T t) (KIdent s :: ts) /\ dots [t] ts).
      { intros Hs. destruct (c_dots [t] s) as (ts & C & Ds); [repeat (apply Forall_cons; [assumption|]); apply Forall_nil|]. exists ts. cbn [flat_map] in C. now rewrite app_nil_r in C. }
      destruct (Z.eqb_spec d 0) as [->|Nd].
      - destruct (Z.eqb_spec s 0) as [->|Ns].
        + exists [KIdent t]. split; [now apply c_name|constructor].
        + destruct S as [S|S]; [contradiction|]. destruct (Two S) as (ts & C & Ds). inversion Ds as [|? ? ts' Dn]; subst. inversion Dn; subst. eexists. split; [exact C|constructor].
      - destruct D as [D|D]; [contradiction|]. destruct S as [S|S]; [now specialize (K S)|]. destruct (c_dots [s; t] d) as (ts & C & Ds); [repeat (apply Forall_cons; [assumption|]); apply Forall_nil|].
        inversion Ds as [|? ? ts1 Dn]; subst. inversion Dn as [|? ? ts2 Dm]; subst. inversion Dm; subst. cbn [flat_map] in C. rewrite app_nil_r in C. eexists. split; [|constructor]. rewrite <- !app_assoc in C. exact C.
    Qed.
    Lemma schema_back sn : plain_schema T sn -> exists ts, chunk T (schemaString T sn) ts /\ schema_name sn ts.
    Proof.
      intros (D & S). destruct sn as [d s]. cbn [sn_database sn_schema] in *. unfold schemaString. cbn [sn_database sn_schema]. destruct (Z.eqb_spec d 0) as [->|Nd].
      - exists [KIdent s]. split; [now apply c_name|constructor].
      - destruct D as [D|D]; [contradiction|]. destruct (c_dots [s] d) as (ts & C & Ds); [repeat (apply Forall_cons; [assumption|]); apply Forall_nil|]. inversion Ds as [|? ? ts1 Dn]; subst. inversion Dn; subst.
        cbn [flat_map] in C. rewrite app_nil_r in C. eexists. split; [exact C|constructor].
    Qed.
    Lemma alias_back a : no_or_simple T a -> exists ts, after T (if a =? 0 then [] else str " AS " ++ idString T a) ts /\ opt_alias a ts.
    Proof.
      intros H. destruct (Z.eqb_spec a 0) as [->|Na]; [exists []; split; [apply a_nil|constructor]|]. destruct H as [H|H]; [contradiction|].
      exists [KReserved kAS; KIdent a]. split; [|constructor; constructor]. apply (a_space (str "AS" ++ str " " ++ idString T a)). apply (c_space _ [KReserved kAS]); [|now apply c_name]. apply (c_word "AS" "AS"). is_reserved.
    Qed.

    (** ** Expressions, queries and from items *)

    (** What is read for what is printed. *)
    Definition expr_read (b : bool) (e e' : expr) (ts : list tok) : Prop :=
      (forall id nm, if b then operand id nm e' ts else sub id nm e' ts) /\ tight e' /\ outer e' = 12 /\ edge e' = 12 /\ strip e' = strip e.
    Definition expr_back (b : bool) (e : expr) : Prop :=
      exists s ts e', exprString T e = PText s /\ chunk T s ts /\ expr_read b e e' ts.
    Definition strip_result (r : selectresult expr) : selectresult expr :=
      match r with TableResult t => TableResult t | ExprResult e a => ExprResult (strip e) a end.
    Definition resultString (r : selectresult expr) : printed :=
      match r with
      | TableResult t => PText (idString T t ++ str ".*")
      | ExprResult e alias => if alias =? 0 then exprString T e else PText (fmtS (exprString T e) ++ str " AS " ++ idString T alias)
      end.
    Definition result_read (r r' : selectresult expr) (ts : list tok) : Prop := (forall id nm, result id nm r' ts) /\ strip_result r' = strip_result r.
    Definition result_back (r : selectresult expr) : Prop := exists s ts r', resultString r = PText s /\ chunk T s ts /\ result_read r r' ts.
    Definition query_back (s : stmt) : Prop :=
      exists t ts s', stmtString T s = PText t /\ chunk T t ts /\ (forall id nm, query id nm s' ts /\ says id nm s' ts) /\ strip_stmt s' = strip_stmt s /\
        match s with SSelect _ _ _ _ _ _ => exists ts', ts = KReserved kSELECT :: ts' /\ forall id nm, select id nm s' ts' | _ => True end.
    Definition from_back (f : fromitem) : Prop :=
      exists s ts f', fromString T f = PText s /\ chunk T s ts /\ (forall id nm, from_operand id nm f' ts) /\ strip_from f' = strip_from f.

    (** The equations of the printing functions. *)
    Lemma subquery_text op eop e s : exprString T (Subquery op eop e s) =
      let left := match e with Some e => fmtS (exprString T e) | None => nilText end in
      PText match op with
            | Scalar => str "(" ++ fmtS (stmtString T s) ++ str ")"
            | ModelSql.Exists => str "EXISTS(" ++ fmtS (stmtString T s) ++ str ")"
            | Any => left ++ str " " ++ opName eop ++ str " ANY(" ++ fmtS (stmtString T s) ++ str ")"
            | All => left ++ str " " ++ opName eop ++ str " ALL(" ++ fmtS (stmtString T s) ++ str ")"
            end.
    Proof. reflexivity. Qed.
    Lemma values_text ls : stmtString T (SValues ls) = writes [PText (str "VALUES"); rowParts true (map (map (exprString T)) ls)].
    Proof. reflexivity. Qed.
    Lemma select_text r f w g h o : stmtString T (SSelect r f w g h o) =
      writes
        [PText (str "SELECT ");
         match r with None => PText (str "*") | Some l => commas (map resultString l) end;
         PText (str " FROM " ++ match f with Some f => fmtS (fromString T f) | None => nilText end);
         PText match w with Some e => str " WHERE " ++ fmtS (exprString T e) | None => [] end;
         match g with
         | [] => PText []
         | _ => writes [PText (str " GROUP BY "); commas (map (exprString T) g); PText match h with Some e => str " HAVING " ++ fmtS (exprString T e) | None => [] end]
         end;
         match o with
         | [] => PText []
         | _ => writes [PText (str " ORDER BY "); commas (map (fun o : expr * bool => writes [exprString T (fst o); PText (if snd o then str " DESC" else str " ASC")]) o)]
         end].
    Proof. reflexivity. Qed.
    Lemma from_stmt_text s a cols : fromString T (FromStmt s a cols) =
      writes [PText (str "(" ++ fmtS (stmtString T s) ++ str ") AS " ++ idString T a);
              match cols with [] => PText [] | _ => writes [PText (str " ("); idCommas T cols; PText (str ")")] end].
    Proof. reflexivity. Qed.
    Lemma from_join_text l r jt cond cols : fromString T (FromJoin l r jt cond cols) =
      writes [PText (str "(" ++ fmtS (fromString T l) ++ str " " ++ jointypeString jt ++ str " " ++ fmtS (fromString T r));
              match cond with Some e => writes [PText (str " ON "); exprString T e] | None => PText [] end;
              match cols with [] => PText [] | _ => writes [PText (str " USING ("); idCommas T cols; PText (str ")")] end;
              PText (str ")")].
    Proof. reflexivity. Qed.
    Lemma strip_select r f w g h o : strip_stmt (SSelect r f w g h o) =
      SSelect (option_map (map strip_result) r) (option_map strip_from f) (option_map strip w) (map strip g) (option_map strip h) (map (fun p => (strip (fst p), snd p)) o).
    Proof. reflexivity. Qed.
    Lemma strip_subquery op eop e s : strip (Subquery op eop e s) = Subquery op eop (option_map strip e) (strip_stmt s).
    Proof. reflexivity. Qed.
    Lemma strip_from_stmt s a c : strip_from (FromStmt s a c) = FromStmt (strip_stmt s) a c.
    Proof. reflexivity. Qed.
    Lemma strip_join l r jt on c : strip_from (FromJoin l r jt on c) = FromJoin (strip_from l) (strip_from r) jt (option_map strip on) c.
    Proof. reflexivity. Qed.
    Lemma strip_values ls : strip_stmt (SValues ls) = SValues (map (map strip) ls).
    Proof. reflexivity. Qed.

    Lemma weaken b e : expr_back b e -> expr_back false e.
    Proof. intros (s & ts & e' & E & C & O & H). exists s, ts, e'. split; [exact E|]. split; [exact C|]. split; [|exact H]. destruct b; [|exact O]. intros. constructor. apply O. Qed.
    Lemma whole_read e e' ts : expr_read false e e' ts -> forall id nm, whole id nm e' ts.
    Proof. intros (O & H & _) id nm. apply (whole_intro _ _ e'); [apply O|exact H|reflexivity]. Qed.
    (** An operand. *)
    Lemma expr_atom b e e' s ts : exprString T e = PText s -> chunk T s ts -> (forall id nm, operand id nm e' ts) -> tight e' -> outer e' = 12 -> edge e' = 12 -> strip e' = strip e -> expr_back b e.
    Proof. intros E C O H1 H2 H3 H4. exists s, ts, e'. split; [exact E|]. split; [exact C|]. split; [|now repeat split]. intros. destruct b; [apply O|constructor; apply O]. Qed.

    Lemma exprs_back l : Forall (expr_back false) l -> l <> [] ->
      exists s ts l', commas (map (exprString T) l) = PText s /\ chunk T s ts /\ (forall id nm, args id nm l' ts) /\ (forall id nm, wholes id nm l' ts) /\
        map strip l' = map strip l /\ length l' = length l /\
        (fix all (args : list expr) : Prop := match args with [] => True | a :: args' => tight a /\ all args' end) l'.
    Proof.
      intros F N. destruct (commas_back (exprString T) (expr_read false) l F N) as (s & ts & l' & E & C & Li). exists s, ts, l'. split; [exact E|]. split; [exact C|]. clear - Li.
      induction Li as [e e' ts H|e e' ts l l' ts' H Li (I1 & I2 & I3 & I4 & I5)]; pose proof (whole_read _ _ _ H) as W; destruct H as (O & H1 & _ & _ & H2).
      - split; [intros; constructor; apply O|]. split; [intros; constructor; apply W|]. cbn. rewrite H2. now repeat split.
      - split; [intros; apply args_more; [apply O|apply I1]|]. split; [intros; apply wholes_more; [apply W|apply I2]|]. cbn. rewrite H2, I3, I4. now repeat split.
    Qed.

    (** A clause with an expression, or nothing. *)
    Lemma clause_back o w k lead : match o with Some e => expr_back false e | None => True end -> reserved_as w w k -> lead = str " " ++ str w ++ str " " ->
      exists s ts o', match o return bytes with Some e => lead ++ fmtS (exprString T e) | None => [] end = s /\ after T s ts /\ (forall id nm, opt_whole id nm k o' ts) /\ option_map strip o' = option_map strip o.
    Proof.
      intros H Hw ->. destruct o as [e|]; [|exists [], [], None; split; [reflexivity|]; split; [apply a_nil|]; split; [constructor|reflexivity]].
      destruct H as (s & ts & e' & E & C & Re). pose proof (whole_read _ _ _ Re) as W. destruct Re as (_ & _ & _ & _ & Hs).
      exists (str " " ++ str w ++ str " " ++ s), (KReserved k :: ts), (Some e'). split; [rewrite E; cbn [fmtS]; now rewrite <- !app_assoc|].
      split; [apply a_space, (c_space _ [KReserved k]); [now apply (c_word w w)|exact C]|]. split; [intros; constructor; apply W|cbn; now rewrite Hs].
    Qed.

    Lemma order_back o : Forall (fun p : expr * bool => exists i, fst p = Ref [i] /\ simple T i) o ->
      exists s ts, match o with [] => PText [] | _ => writes [PText (str " ORDER BY "); commas (map (fun o : expr * bool => writes [exprString T (fst o); PText (if snd o then str " DESC" else str " ASC")]) o)] end = PText s /\
        after T s ts /\ opt_order o ts /\ map (fun p => (strip (fst p), snd p)) o = o.
    Proof.
      intros F. assert (Eo : map (fun p : expr * bool => (strip (fst p), snd p)) o = o).
      { induction F as [|[e b] o (i & Ei & _) F IH]; [reflexivity|]. cbn in *. subst e. now rewrite IH. }
      destruct o as [|p o]; [exists [], []; split; [reflexivity|]; split; [apply a_nil|]; split; [constructor|reflexivity]|]. rename p into p0. set (l := p0 :: o) in *.
      destruct (commas_back (fun o : expr * bool => writes [exprString T (fst o); PText (if snd o then str " DESC" else str " ASC")])
        (fun p p' ts => p' = p /\ exists i, p = (Ref [i], snd p) /\ ts = [KIdent i; KReserved (if snd p then kDESC else kASC)]) l) as (s & ts & l' & E & C & Li); [|discriminate|].
      - eapply Forall_impl; [|exact F]. intros [e b] (i & Ei & Hi). cbn [fst] in Ei. subst e. cbn [fst snd].
        exists (idString T i ++ str " " ++ str (if b then "DESC" else "ASC")), [KIdent i; KReserved (if b then kDESC else kASC)], (Ref [i], b).
        split; [cbn [exprString flat_map writes]; rewrite !app_nil_r; now destruct b|]. split; [|split; [reflexivity|now exists i]].
        apply (c_space _ [KIdent i]); [now apply c_name|]. destruct b; [apply (c_word "DESC" "DESC")|apply (c_word "ASC" "ASC")]; is_reserved.
      - exists (str " " ++ str "ORDER" ++ str " " ++ str "BY" ++ str " " ++ s), (KReserved kORDER :: KReserved kBY :: ts).
        split; [unfold l in E |- *; rewrite E; cbn [writes]; now rewrite app_nil_r|]. split.
        { apply a_space, (c_space _ [KReserved kORDER]); [apply (c_word "ORDER" "ORDER"); is_reserved|]. apply (c_space _ [KReserved kBY]); [apply (c_word "BY" "BY"); is_reserved|exact C]. }
        split; [|exact Eo]. constructor. clear - Li. assert (Dir : forall b, direction b [KReserved (if b then kDESC else kASC)]) by (intros []; constructor).
        induction Li as [p p' ts (-> & i & Ep & ->)|p p' ts l l' ts' (-> & i & Ep & ->) Li IH]; rewrite Ep; [constructor; apply Dir|]. cbn [snd app]. apply (oc_more i (snd p) [KReserved _]); [apply Dir|exact IH].
    Qed.

    Lemma rows_back ls : forall first, Forall (fun l => l <> [] /\ Forall (expr_back false) l) ls -> ls <> [] ->
      exists s ts ls', rowParts first (map (map (exprString T)) ls) = PText ((if first : bool then str " " else str ", ") ++ s) /\ chunk T s ts /\
        (Forall (fun l' => length l' = length (hd [] ls)) ls -> forall id nm, rows id nm ls' ts) /\
        (forall id nm, insert_rows id nm (map (map Some) ls') ts) /\
        map (map strip) ls' = map (map strip) ls /\ map (@length expr) ls' = map (@length expr) ls.
    Proof.
      induction ls as [|l ls IH]; intros first F N; [contradiction|]. inversion F as [|? ? [Nl Fl] Fls]; subst. destruct (exprs_back l Fl Nl) as (s & ts & l' & E & C & _ & W & Hs & Hlen & _).
      assert (Row : forall id nm, insert_row id nm (map Some l') ts).
      { intros id nm. specialize (W id nm). clear - W. induction W as [e ts H|e l ts ts' H W IH]; [constructor; now constructor|]. cbn [map]. apply ir_more; [now constructor|exact IH]. }
      destruct ls as [|l2 ls].
      - exists (str "(" ++ s ++ str ")"), (KRune 40 :: ts ++ [KRune 41]), [l']. split; [cbn [map rowParts]; rewrite E; destruct first; cbn [writes]; now rewrite <- ?app_assoc|].
        split; [now apply c_paren|]. split; [intros _ id nm; constructor; apply W|]. split; [intros id nm; cbn [map]; constructor; apply Row|]. cbn [map]. now rewrite Hs, Hlen.
      - destruct (IH false Fls ltac:(discriminate)) as (s2 & ts2 & ls2 & E2 & C2 & W2 & I2 & H2 & L2).
        exists ((str "(" ++ s ++ str ")") ++ str ", " ++ s2), ((KRune 40 :: ts ++ [KRune 41]) ++ KRune 44 :: ts2), (l' :: ls2).
        split. { cbn [map] in E2 |- *. cbn [rowParts] in E2 |- *. rewrite E, E2. destruct first; cbn [writes]; now rewrite <- ?app_assoc, ?app_nil_r. }
        split; [apply c_after; [now apply c_paren|now apply a_comma]|]. replace ((KRune 40 :: ts ++ [KRune 41]) ++ KRune 44 :: ts2) with (KRune 40 :: ts ++ KRune 41 :: KRune 44 :: ts2) by (cbn [app]; now rewrite <- app_assoc).
        split; [|split; [|cbn [map] in *; now rewrite Hs, H2, Hlen, L2]].
        + intros Fn id nm. inversion Fn as [|? ? _ Fn']; subst. cbn [hd] in Fn'. apply rows_more; [apply W| |].
          * apply W2. cbn [hd]. inversion Fn' as [|? ? E1 Fn2]; subst. constructor; [reflexivity|]. eapply Forall_impl; [|exact Fn2]. cbn. intros y Ey. now rewrite Ey, E1.
          * rewrite Hlen. clear - Fn' L2. revert Fn' L2. generalize (l2 :: ls). intros k Fk. revert ls2. induction Fk as [|y k Ey Fk IHk]; intros [|z ls2] L2; try discriminate; [constructor|]. cbn in L2. injection L2 as Lz L2. constructor; [now rewrite Lz|now apply IHk].
        + intros id nm. cbn [map]. apply irs_more; [apply Row|apply I2].
    Qed.

    Lemma join_back jt : jt <> CrossJoin -> exists ts, chunk T (jointypeString jt) ts /\ join_words jt ts.
    Proof.
      intros N. destruct jt; try contradiction.
      - exists [KReserved kJOIN]. split; [apply (c_word "JOIN" "JOIN"); is_reserved|constructor].
      - exists [KReserved kLEFT; KReserved kJOIN]. split; [apply (c_space (str "LEFT") [_] (str "JOIN")); [apply (c_word "LEFT" "LEFT")|apply (c_word "JOIN" "JOIN")]; is_reserved|constructor].
      - exists [KReserved kRIGHT; KReserved kJOIN]. split; [apply (c_space (str "RIGHT") [_] (str "JOIN")); [apply (c_word "RIGHT" "RIGHT")|apply (c_word "JOIN" "JOIN")]; is_reserved|constructor].
      - exists [KReserved kFULL; KReserved kJOIN]. split; [apply (c_space (str "FULL") [_] (str "JOIN")); [apply (c_word "FULL" "FULL")|apply (c_word "JOIN" "JOIN")]; is_reserved|constructor].
    Qed.

    Lemma compares_token op : compares op -> op <> NoOp /\ In (op_tok op, op, true) infix_tokens.
    Proof. unfold compares. cbn [In]. intros H. repeat destruct H as [<-|H]; try contradiction; (split; [discriminate|cbn; tauto]). Qed.

    Lemma call_back b f args : simple T f -> Forall (expr_back false) args -> expr_back b (SExpr f args).
    Proof.
      intros Hf F. destruct args as [|a l].
      - apply (expr_atom b _ (SExpr f []) (idString T f ++ str "()" ++ []) ([KIdent f] ++ [KRune 40; KRune 41])); try reflexivity.
        + cbn [exprString map commas writes]. now rewrite <- !app_assoc.
        + apply c_after; [now apply c_name|apply a_lprp, a_nil].
        + intros. constructor.
      - destruct (exprs_back (a :: l) F ltac:(discriminate)) as (s & ts & l' & E & C & Ar & _ & Hs & _ & Ht).
        apply (expr_atom b _ (SExpr f l') (idString T f ++ str "(" ++ s ++ str ")" ++ []) ([KIdent f] ++ KRune 40 :: ts ++ [KRune 41])); try reflexivity.
        + cbn [exprString]. rewrite E. cbn [writes]. now rewrite <- !app_assoc.
        + apply c_after; [now apply c_name|apply a_lp; [exact C|apply a_nil]].
        + intros. cbn [app]. apply op_call, Ar.
        + exact Ht.
        + cbn [strip]. now rewrite Hs.
    Qed.
    Lemma unary_back b op e : In op [NotOp; NegateOp] -> expr_back false e -> expr_back b (UnaryExpr op e).
    Proof.
      intros Ho (s & ts & e' & E & C & O & Ht & Hout & Hed & Hs). assert (No : op <> NoOp) by (intros ->; cbn in Ho; intuition discriminate).
      apply (expr_atom b _ (UnaryExpr NoOp (UnaryExpr op e')) (str "(" ++ (opName op ++ str " " ++ s) ++ str ")") (KRune 40 :: (op_tok op :: ts) ++ [KRune 41])); try reflexivity.
      - replace (exprString T (UnaryExpr op e)) with (PText (str "(" ++ opName op ++ str " " ++ fmtS (exprString T e) ++ str ")")) by (destruct op; try contradiction; reflexivity).
        rewrite E. cbn [fmtS]. now rewrite <- !app_assoc.
      - apply c_paren, c_op; assumption.
      - intros. apply op_paren. destruct Ho as [<-|[<-|[]]]; [apply sub_not|apply sub_minus]; apply O.
      - destruct Ho as [<-|[<-|[]]]; cbn [tight prefix_op binds]; rewrite Hout; repeat split; try exact Ht; lia.
      - destruct Ho as [<-|[<-|[]]]; cbn [strip]; now rewrite Hs.
    Qed.
    Lemma binary_back b op l r : ~ In op [NoOp; NotOp; NegateOp] -> expr_back true l -> expr_back false r -> expr_back b (BinaryExpr op l r).
    Proof.
      intros Ho (sl & tl & l' & El & Cl & Ol & Htl & Houtl & Hedl & Hsl) (sr & tr & r' & Er & Cr & Or & Htr & Houtr & Hedr & Hsr).
      assert (No : op <> NoOp) by (intros ->; apply Ho; now left).
      apply (expr_atom b _ (UnaryExpr NoOp (BinaryExpr op l' r')) (str "(" ++ (sl ++ str " " ++ opName op ++ str " " ++ sr) ++ str ")") (KRune 40 :: (tl ++ op_tok op :: tr) ++ [KRune 41])); try reflexivity.
      - cbn [exprString]. rewrite El, Er. cbn [fmtS]. now rewrite <- !app_assoc.
      - apply c_paren, c_space; [exact Cl|now apply c_op].
      - intros. apply op_paren. destruct (op_infix op Ho) as (c & Hc). eapply sub_infix; [exact Hc|apply Ol|apply Or].
      - cbn [tight]. rewrite Houtl, Houtr, Hedl. split; [destruct op; cbn in Ho |- *; tauto|]. split; [exact Htl|]. split; [exact Htr|]. destruct op; cbn in Ho |- *; try lia; exfalso; tauto.
      - cbn [strip]. now rewrite Hsl, Hsr.
    Qed.
    Lemma any_back op eop e s : In op [Any; All] -> compares eop -> expr_back true e -> query_back s -> expr_back false (Subquery op eop (Some e) s).
    Proof.
      intros Ho Hc (sl & tl & l' & El & Cl & Ol & _ & _ & _ & Hsl) (t & ts & s' & Et & Ct & Q & Hs & _). destruct (compares_token eop Hc) as [No Hi].
      set (w := if match op with Any => true | _ => false end then "ANY"%string else "ALL"%string). set (k := if match op with Any => true | _ => false end then kANY else kALL).
      exists (sl ++ str " " ++ opName eop ++ str " " ++ str w ++ str "(" ++ t ++ str ")" ++ []), (tl ++ op_tok eop :: [KReserved k] ++ KRune 40 :: ts ++ [KRune 41]), (Subquery op eop (Some l') s').
      split. { rewrite subquery_text, El, Et. cbn [fmtS]. destruct Ho as [<-|[<-|[]]]; reflexivity. }
      split. { apply c_space; [exact Cl|]. apply c_op; [exact No|]. apply c_after; [|apply a_lp; [exact Ct|apply a_nil]]. destruct Ho as [<-|[<-|[]]]; [apply (c_word "ANY" "ANY")|apply (c_word "ALL" "ALL")]; is_reserved. }
      split; [|repeat split; rewrite !strip_subquery; cbn [option_map]; now rewrite Hsl, Hs].
      intros id nm. cbn [app]. destruct Ho as [<-|[<-|[]]]; [apply (sub_any _ _ (op_tok eop)); [exact Hi|cbn; tauto|apply Ol|apply Q]|apply sub_all; [exact Hi|apply Ol|apply Q]].
    Qed.

    Lemma select_back r f w g h o :
      match r with None => True | Some l => l <> [] /\ Forall result_back l end -> from_back f ->
      match w with None => True | Some e => expr_back false e end -> Forall (expr_back false) g ->
      match h with None => True | Some e => expr_back false e end -> (g = [] -> h = None) ->
      Forall (fun p => exists i, fst p = Ref [i] /\ simple T i) o -> query_back (SSelect r (Some f) w g h o).
    Proof.
      intros Hr (sf & tf & f' & Ef & Cf & Of & Hf) Hw Hg Hh Hgh Ho.
      assert (Rs : exists s ts r', match r with None => PText (str "*") | Some l => commas (map resultString l) end = PText s /\ chunk T s ts /\ (forall id nm, opt_results id nm r' ts) /\
        option_map (map strip_result) r' = option_map (map strip_result) r).
      { destruct r as [l|]; [|exists (str "*"), [KRune 42], None; split; [reflexivity|]; split; [apply c_star|]; split; [constructor|reflexivity]].
        destruct Hr as [N F]. destruct (commas_back resultString result_read l F N) as (s & ts & l' & E & C & Li). exists s, ts, (Some l'). split; [exact E|]. split; [exact C|]. clear - Li.
        assert (K : (forall id nm, results id nm l' ts) /\ map strip_result l' = map strip_result l).
        { induction Li as [a a' ts [H1 H2]|a a' ts l l' ts' [H1 H2] Li [I1 I2]]; cbn [map]; rewrite H2; [split; [intros; constructor; apply H1|reflexivity]|]. rewrite I2. split; [intros; apply rs_more; auto|reflexivity]. }
        destruct K as [K1 K2]. split; [intros; constructor; apply K1|cbn; now rewrite K2]. }
      destruct Rs as (sr & tr & r' & Er & Cr & Or & Hsr).
      destruct (clause_back w "WHERE" kWHERE (str " WHERE ") Hw ltac:(is_reserved) eq_refl) as (sw & tw & w' & Ew & Aw & Ow & Hsw).
      destruct (order_back o Ho) as (so & to & Eo & Ao & Oo & Hso).
      assert (Gs : exists s tg th g' h', match g with [] => PText [] | _ => writes [PText (str " GROUP BY "); commas (map (exprString T) g);
          PText match h with Some e => str " HAVING " ++ fmtS (exprString T e) | None => [] end] end = PText s /\ after T s (tg ++ th) /\
          (forall id nm, opt_group id nm g' tg) /\ (forall id nm, opt_whole id nm kHAVING h' th) /\ map strip g' = map strip g /\ option_map strip h' = option_map strip h).
      { destruct g as [|e g]; [rewrite (Hgh eq_refl); exists [], [], [], [], None; split; [reflexivity|]; split; [apply a_nil|]; split; [constructor|]; split; [constructor|split; reflexivity]|].
        destruct (exprs_back (e :: g) Hg ltac:(discriminate)) as (sg & tg & g' & Eg & Cg & _ & Wg & Hsg & _).
        destruct (clause_back h "HAVING" kHAVING (str " HAVING ") Hh ltac:(is_reserved) eq_refl) as (sh & th & h' & Eh & Ah & Oh & Hsh).
        exists ((str " " ++ str "GROUP" ++ str " " ++ str "BY" ++ str " " ++ sg) ++ sh), (KReserved kGROUP :: KReserved kBY :: tg), th, g', h'.
        split; [rewrite Eg, <- Eh; cbn [writes]; rewrite app_nil_r, <- !app_assoc; reflexivity|]. split.
        { apply a_app; [|exact Ah]. apply a_space, (c_space _ [KReserved kGROUP]); [apply (c_word "GROUP" "GROUP"); is_reserved|]. apply (c_space _ [KReserved kBY]); [apply (c_word "BY" "BY"); is_reserved|exact Cg]. }
        split; [intros; constructor; apply Wg|]. split; [exact Oh|]. now split. }
      destruct Gs as (sg & tg & th & g' & h' & Eg & Ag & Og & Oh & Hsg & Hsh).
      set (ts := tr ++ (KReserved kFROM :: tf) ++ tw ++ tg ++ th ++ to).
      assert (Sel : forall id nm, select id nm (SSelect r' (Some f') w' g' h' o) ts).
      { intros. apply sel_intro; auto. constructor. rewrite <- (app_nil_r tf). apply (fl_intro _ _ false f'); [constructor; apply Of|constructor]. }
      exists (str "SELECT" ++ (str " " ++ sr) ++ (str " " ++ str "FROM" ++ str " " ++ sf) ++ sw ++ sg ++ so), (KReserved kSELECT :: ts), (SSelect r' (Some f') w' g' h' o). split.
      { rewrite select_text, Er, Ew, Eg, Eo, Ef. cbn [writes fmtS]. rewrite !app_nil_r, <- !app_assoc. reflexivity. }
      split. { apply (c_after _ [KReserved kSELECT]); [apply (c_word "SELECT" "SELECT"); is_reserved|]. unfold ts. apply a_app; [now apply a_space|]. apply a_app.
        - apply a_space, (c_space _ [KReserved kFROM]); [apply (c_word "FROM" "FROM"); is_reserved|exact Cf].
        - apply a_app; [exact Aw|]. rewrite (app_assoc tg). apply a_app; [exact Ag|exact Ao]. }
      split; [intros; split; now constructor|]. split; [|now exists ts]. rewrite !strip_select, Hsr. cbn [option_map]. now rewrite Hf, Hsw, Hsg, Hsh.
    Qed.

    Scheme plain_min := Minimality for plain Sort Prop
    with plains_min := Minimality for plains Sort Prop
    with plain_opt_min := Minimality for plain_opt Sort Prop
    with plain_rows_min := Minimality for plain_rows Sort Prop
    with plain_results_min := Minimality for plain_results Sort Prop
    with plain_columns_min := Minimality for plain_columns Sort Prop
    with plain_query_min := Minimality for plain_query Sort Prop
    with plain_from_min := Minimality for plain_from Sort Prop.
    Combined Scheme plain_mutual from plain_min, plains_min, plain_opt_min, plain_rows_min, plain_results_min, plain_columns_min, plain_query_min, plain_from_min.

    Lemma variable_back i : plain_variable T i -> exists k, chunk T (idString T i) [k] /\ forall id nm, show id nm (SShow i) [k].
    Proof.
      intros [[H N]|[<-|[<-|[]]]].
      - exists (KIdent i). split; [now apply c_name|intros; now constructor].
      - exists (KReserved kDATABASE). split; [|constructor]. replace (idString T kDATABASE) with (str "DATABASE") by (symmetry; apply keyword_text; [exact R|cbn; tauto]). apply (c_word "DATABASE" "DATABASE"). is_reserved.
      - exists (KReserved kSCHEMA). split; [|constructor]. replace (idString T kSCHEMA) with (str "SCHEMA") by (symmetry; apply keyword_text; [exact R|cbn; tauto]). apply (c_word "SCHEMA" "SCHEMA"). is_reserved.
    Qed.

    Lemma all_back :
      (forall b e, plain T b e -> expr_back b e) /\ (forall l, plains T l -> Forall (expr_back false) l) /\
      (forall o, plain_opt T o -> match o with None => True | Some e => expr_back false e end) /\
      (forall ls, plain_rows T ls -> Forall (fun l => l <> [] /\ Forall (expr_back false) l) ls) /\
      (forall l, plain_results T l -> Forall result_back l) /\
      (forall o, plain_columns T o -> match o with None => True | Some l => l <> [] /\ Forall result_back l end) /\
      (forall s, plain_query T s -> query_back s) /\ (forall f, plain_from T f -> from_back f).
    Proof.
      apply (plain_mutual X L U P T expr_back (Forall (expr_back false)) (fun o => match o with None => True | Some e => expr_back false e end)
        (Forall (fun l => l <> [] /\ Forall (expr_back false) l)) (Forall result_back) (fun o => match o with None => True | Some l => l <> [] /\ Forall result_back l end) query_back from_back).
      - intros b. apply (expr_atom b _ (Literal VNull) (str "NULL") [KReserved kNULL]); try reflexivity; [apply (c_word "NULL" "NULL"); is_reserved|constructor].
      - intros b v. apply (expr_atom b _ (Literal (VBool v)) (str (if v then "true" else "false")) [KReserved (if v then kTRUE else kFALSE)]); try reflexivity; [now destruct v| |destruct v; constructor].
        destruct v; [apply (c_word "true" "TRUE")|apply (c_word "false" "FALSE")]; is_reserved.
      - intros b i Hi. apply (expr_atom b _ (Literal (VInt i)) (format_int i) [KInteger i]); try reflexivity; [now apply c_int|constructor].
      - intros b p Hp. apply (expr_atom b _ (Literal (VFloat p)) (x_print_float p) [KFloat p]); try reflexivity; [now apply c_float|constructor].
      - intros b w Hw N. apply (expr_atom b _ (Literal (VString (encode w))) (str "'" ++ encode w ++ str "'") [KString (encode w)]); try reflexivity; [now apply c_string|constructor].
      - intros b i l F. destruct (c_dots l i F) as (ts & C & D). apply (expr_atom b _ (Ref (i :: l)) _ (KIdent i :: ts)) with (2 := C); try reflexivity. intros. now constructor.
      - intros b f args Hf _. apply call_back, Hf.
      - intros b e _ H. exact H.
      - intros b op e Ho _. now apply unary_back.
      - intros b op l r Ho _ Hl _ Hr. now apply binary_back.
      - intros b s _ (t & ts & s' & Et & Ct & Q & Hs & _). apply (expr_atom b _ (Subquery Scalar AddOp None s') (str "(" ++ t ++ str ")") (KRune 40 :: ts ++ [KRune 41])); try reflexivity.
        + rewrite subquery_text. now rewrite Et.
        + now apply c_paren.
        + intros. constructor. apply Q.
        + rewrite !strip_subquery. cbn [option_map]. now rewrite Hs.
      - intros b s _ (t & ts & s' & Et & Ct & Q & Hs & _). apply (expr_atom b _ (Subquery ModelSql.Exists AddOp None s') (str "EXISTS" ++ str "(" ++ t ++ str ")" ++ []) ([KReserved kEXISTS] ++ KRune 40 :: ts ++ [KRune 41])); try reflexivity.
        + rewrite subquery_text. now rewrite Et.
        + apply c_after; [apply (c_word "EXISTS" "EXISTS"); is_reserved|]. apply a_lp; [exact Ct|apply a_nil].
        + intros. constructor. apply Q.
        + rewrite !strip_subquery. cbn [option_map]. now rewrite Hs.
      - intros op eop e s Ho Hc _ He _ Hq. now apply any_back.
      - constructor.
      - intros e l _ He _ Hl. now constructor.
      - exact Logic.I.
      - intros e _ He. exact He.
      - constructor.
      - intros l ls N _ Hl _ Hls. constructor; [now split|exact Hls].
      - constructor.
      - intros t l Ht _ Hl. constructor; [|exact Hl]. exists (idString T t ++ str ".*"), [KIdent t; KRune 46; KRune 42], (TableResult t). split; [reflexivity|]. split; [now apply c_all|]. split; [constructor|reflexivity].
      - intros e a l _ He Ha _ Hl. constructor; [|exact Hl]. destruct He as (s & ts & e' & E & C & Re). pose proof (whole_read _ _ _ Re) as W. destruct Re as (_ & _ & _ & _ & Hs).
        destruct (alias_back a Ha) as (ta & Aa & Oa). exists (s ++ (if a =? 0 then [] else str " AS " ++ idString T a)), (ts ++ ta), (ExprResult e' a).
        split; [unfold resultString; rewrite E; destruct (a =? 0); [now rewrite app_nil_r|reflexivity]|]. split; [now apply c_after|]. split; [intros; now constructor|cbn; now rewrite Hs].
      - exact Logic.I.
      - intros l N _ Hl. now split.
      - intros r f w g h o _ Hr _ Hf _ Hw _ Hg _ Hh Hgh Ho. now apply select_back.
      - intros l ls _ Hls Hlen. destruct (rows_back (l :: ls) true Hls ltac:(discriminate)) as (s & ts & ls' & E & C & W & _ & Hs & _).
        assert (Rw : forall id nm, rows id nm ls' ts) by (apply W; constructor; [reflexivity|exact Hlen]).
        exists (str "VALUES" ++ str " " ++ s), (KReserved kVALUES :: ts), (SValues ls'). split; [rewrite values_text, E; cbn [writes]; now rewrite app_nil_r|].
        split; [apply (c_space _ [KReserved kVALUES]); [apply (c_word "VALUES" "VALUES"); is_reserved|exact C]|]. split; [intros; split; now constructor|]. split; [|exact Logic.I]. rewrite !strip_values. now rewrite Hs.
      - intros i Hi. destruct (variable_back i Hi) as (k & C & Sh). exists (str "SHOW" ++ str " " ++ idString T i), [KReserved kSHOW; k], (SShow i). split; [reflexivity|].
        split; [apply (c_space _ [KReserved kSHOW]); [apply (c_word "SHOW" "SHOW"); is_reserved|exact C]|]. split; [intros; split; now constructor|]. split; [reflexivity|exact Logic.I].
      - intros tn a Ht Ha. destruct (table_back tn Ht) as (ts & C & Tn). destruct (alias_back a Ha) as (ta & Aa & Oa).
        exists (tableString T tn ++ (if a =? 0 then [] else str " AS " ++ idString T a)), (ts ++ ta), (FromTableAlias tn a). split; [reflexivity|]. split; [now apply c_after|]. split; [intros; now constructor|reflexivity].
      - intros tn i a Ht Hi Ha. destruct (table_back tn Ht) as (ts & C & Tn). destruct (alias_back a Ha) as (ta & Aa & Oa).
        exists (tableString T tn ++ str "@" ++ idString T i ++ (if a =? 0 then [] else str " AS " ++ idString T a)), (ts ++ KRune 64 :: [KIdent i] ++ ta), (FromIndexAlias tn i a). split; [reflexivity|].
        split; [apply c_after; [exact C|]; apply a_at, c_after; [now apply c_name|exact Aa]|]. split; [intros; now constructor|reflexivity].
      - intros s a cols _ (t & ts & s' & Et & Ct & Q & Hs & _) Ha Hc. destruct (opt_names_back cols Hc) as (sc & tc & Ec & Ac & Oc).
        exists ((str "(" ++ t ++ str ")") ++ str " " ++ (str "AS" ++ str " " ++ idString T a) ++ sc), ((KRune 40 :: ts ++ [KRune 41]) ++ [KReserved kAS; KIdent a] ++ tc), (FromStmt s' a cols).
        split; [rewrite from_stmt_text, Et, Ec; cbn [writes fmtS]; rewrite !app_nil_r, <- !app_assoc; reflexivity|].
        split; [apply c_space; [now apply c_paren|]; apply c_after; [|exact Ac]; apply (c_space _ [KReserved kAS]); [apply (c_word "AS" "AS"); is_reserved|now apply c_name]|].
        split; [|rewrite !strip_from_stmt; now rewrite Hs]. intros. replace ((KRune 40 :: ts ++ [KRune 41]) ++ [KReserved kAS; KIdent a] ++ tc) with (KRune 40 :: ts ++ KRune 41 :: [KReserved kAS; KIdent a] ++ tc) by (cbn [app]; now rewrite <- app_assoc).
        apply fo_query; [apply Q|constructor|exact Oc].
      - intros l r _ (sl & tl & l' & El & Cl & Ol & Hl) _ (sr & tr & r' & Er & Cr & Or & Hr).
        exists (str "(" ++ (sl ++ str " " ++ (str "CROSS" ++ str " " ++ str "JOIN") ++ str " " ++ sr) ++ str ")"), (KRune 40 :: (tl ++ [KReserved kCROSS; KReserved kJOIN] ++ tr) ++ [KRune 41]), (FromJoin l' r' CrossJoin None []).
        split; [rewrite from_join_text, El, Er; cbn [writes fmtS]; rewrite !app_nil_r, <- !app_assoc; reflexivity|].
        split; [apply c_paren, c_space; [exact Cl|]; apply c_space; [|exact Cr]; apply (c_space _ [KReserved kCROSS]); [apply (c_word "CROSS" "CROSS")|apply (c_word "JOIN" "JOIN")]; is_reserved|].
        split; [|rewrite !strip_join; cbn [option_map]; now rewrite Hl, Hr]. intros. apply fo_paren. rewrite <- (app_nil_r (_ ++ _ ++ tr)). eapply fl_intro; [|constructor]. cbn [app]. eapply fi_cross; [apply Ol|constructor; apply Or].
      - intros l r jt e Nj _ (sl & tl & l' & El & Cl & Ol & Hl) _ (sr & tr & r' & Er & Cr & Or & Hr) _ (se & te & e' & Ee & Ce & Re). pose proof (whole_read _ _ _ Re) as W. destruct Re as (_ & _ & _ & _ & Hs).
        destruct (join_back jt Nj) as (tj & Cj & Jw).
        exists (str "(" ++ (sl ++ str " " ++ jointypeString jt ++ str " " ++ sr ++ str " " ++ str "ON" ++ str " " ++ se) ++ str ")"), (KRune 40 :: (tl ++ tj ++ tr ++ [KReserved kON] ++ te) ++ [KRune 41]), (FromJoin l' r' jt (Some e') []).
        split; [rewrite from_join_text, El, Er, Ee; cbn [writes fmtS]; rewrite !app_nil_r, <- !app_assoc; reflexivity|].
        split; [apply c_paren, c_space; [exact Cl|]; apply c_space; [exact Cj|]; apply c_space; [exact Cr|]; apply c_space; [apply (c_word "ON" "ON"); is_reserved|exact Ce]|].
        split; [|rewrite !strip_join; cbn [option_map]; now rewrite Hl, Hr, Hs]. intros. apply fo_paren. rewrite <- (app_nil_r (_ ++ _ ++ _ ++ _ ++ te)). eapply fl_intro; [|constructor]. cbn [app]. apply fi_on; [apply Ol|exact Jw|constructor; apply Or|apply W].
      - intros l r jt cols Nj _ (sl & tl & l' & El & Cl & Ol & Hl) _ (sr & tr & r' & Er & Cr & Or & Hr) Hc Nd Nc. destruct (join_back jt Nj) as (tj & Cj & Jw). destruct (names_back cols Hc Nc) as (sc & tc & Ec & Cc & Nm).
        exists (str "(" ++ (sl ++ str " " ++ jointypeString jt ++ str " " ++ sr ++ str " " ++ str "USING" ++ str " " ++ (str "(" ++ sc ++ str ")")) ++ str ")"), (KRune 40 :: (tl ++ tj ++ tr ++ [KReserved kUSING] ++ (KRune 40 :: tc ++ [KRune 41])) ++ [KRune 41]), (FromJoin l' r' jt None cols).
        split; [rewrite from_join_text, El, Er, Ec; destruct cols; [contradiction|]; cbn [writes fmtS]; rewrite ?app_nil_r, <- !app_assoc; reflexivity|].
        split; [apply c_paren, c_space; [exact Cl|]; apply c_space; [exact Cj|]; apply c_space; [exact Cr|]; apply c_space; [apply (c_word "USING" "USING"); is_reserved|now apply c_paren]|].
        split; [|rewrite !strip_join; cbn [option_map]; now rewrite Hl, Hr]. intros. apply fo_paren. rewrite <- (app_nil_r (_ ++ _ ++ _ ++ _ ++ _)). eapply fl_intro; [|constructor]. cbn [app]. apply fi_using; [apply Ol|exact Jw|constructor; apply Or|exact Nm|exact Nd].
    Qed.
  End Chunks.
End Print.

(** ** UTF-8 *)

Lemma utf8_first r r' a b : scalar r -> scalar r' -> utf8_encode r ++ a = utf8_encode r' ++ b -> r = r' /\ a = b.
Proof.
  intros [S1 S2] [S1' S2']. unfold utf8_encode.
  assert (K : forall x, 0 <= x <= 1114111 -> ~ 55296 <= x <= 57343 -> (if (x <? 0) || (1114111 <? x) || ((55296 <=? x) && (x <=? 57343)) then RuneError else x) = x).
  { intros x H1 H2. destruct (Z.ltb_spec x 0); [lia|]. destruct (Z.ltb_spec 1114111 x); [lia|]. destruct (Z.leb_spec 55296 x); [|reflexivity]. destruct (Z.leb_spec x 57343); [lia|reflexivity]. }
  rewrite (K r S1 S2), (K r' S1' S2'). cbv zeta. clear K.
  assert (B : forall x y, 0 <= x < 256 -> 0 <= y < 256 -> zb x = zb y -> x = y).
  { intros x y Hx Hy E. apply (f_equal bz) in E. rewrite !bz_zb, !Z.mod_small in E; lia. }
  repeat match goal with |- context [if ?x <? ?y then _ else _] => destruct (Z.ltb_spec x y) end;
    cbn [app]; intros E; injection E; clear E; intros;
    repeat match goal with H : zb _ = zb _ |- _ => apply B in H; [|Z.to_euclidean_division_equations; lia..] end;
    first [split; [Z.to_euclidean_division_equations; lia|assumption]|exfalso; Z.to_euclidean_division_equations; lia].
Qed.
Lemma encode_injective w : forall v, Forall scalar w -> Forall scalar v -> encode w = encode v -> w = v.
Proof.
  assert (N : forall r l, encode (r :: l) <> []) by (intros r l E; pose proof (utf8_encode_length r) as H; cbn [encode flat_map] in E; destruct (utf8_encode r); [cbn in H; lia|discriminate]).
  induction w as [|r w IH]; intros [|r' v] Hw Hv E; [reflexivity|exfalso; symmetry in E; exact (N _ _ E)|exfalso; exact (N _ _ E)|].
  inversion Hw; inversion Hv; subst. cbn [encode flat_map] in E. apply utf8_first in E; [|assumption..]. destruct E as [-> E]. f_equal. now apply IH.
Qed.

Section Back.
  Context {X : FloatLib} {L : CaseLib} {U : RuneLib} {B : BufLib} {P : PrintLib}.

  Lemma round_trip : RuneLib_scan U -> CaseLib_ok L -> forall T e, real T -> plain T false e -> returns T e.
  Proof.
    intros HU HL T e R Hp. destruct (all_back HU HL T R) as (K & _). destruct (K _ _ Hp) as (s & ts & e' & E & (ps & -> & (G & Hl & F) & _) & O & Ht & _ & _ & Hs). clear K.
    exists (ptexts ps). split; [exact E|]. split; [now apply good_scalar|]. intros input p Hi Hu Hr Rp La.
    pose proof (pieces_statement HU ps G Hl) as St. rewrite <- Hr in St.
    destruct (expr_text HU input p _ _ Hi Hu Rp St) as (T' & R' & La' & _ & K).
    destruct (K e') as (p' & Ep & _).
    - exists e'. split; [|now split]. exists ts. split; [|apply O]. apply (tokens_later _ _ _ _ La'), (tokens_later _ _ _ _ La), F.
    - now exists e', p'.
  Qed.
End Back.
