(** What is printed for a statement is read back. *)

From Verif Require Import ModelPrint SpecPrint LemmasBase LemmasValue LemmasScanner LemmasIdent LemmasGrammarLink LemmasPieces LemmasPrint.

Section Stmt.
  Context {X : FloatLib} {L : CaseLib} {U : RuneLib} {P : PrintLib}.
  Context (HU : RuneLib_scan U) (HL : CaseLib_ok L).
  Variable T : idtable.
  Hypothesis R : real T.

  Ltac kw s := apply (c_word HU HL T R s s); is_reserved.
  Tactic Notation "then_kw" constr(s) constr(i) := apply (c_space T (str s) [KReserved i]); [kw s|].

  Lemma expr_plain b e : plain T b e -> expr_back T b e.
  Proof. apply (proj1 (all_back HU HL T R)). Qed.
  Lemma opt_plain o : plain_opt T o -> match o with None => True | Some e => expr_back T false e end.
  Proof. apply (all_back HU HL T R). Qed.
  Lemma query_plain s : plain_query T s -> query_back T s.
  Proof. apply (all_back HU HL T R). Qed.
  Lemma rows_plain ls : plain_rows T ls -> Forall (fun l => l <> [] /\ Forall (expr_back T false) l) ls.
  Proof. apply (all_back HU HL T R). Qed.

  Definition stmt_back (s : stmt) : Prop :=
    exists t ts s', stmtString T s = PText t /\ chunk T t ts /\
      (forall id nm, (forall i, simple T i -> nm i = idString T i) -> says id nm s' ts) /\ strip_stmt s' = strip_stmt s.
  (** Without expressions in it. *)
  Lemma stmt_atom s t ts : stmtString T s = PText t -> chunk T t ts ->
    (forall id nm, (forall i, simple T i -> nm i = idString T i) -> says id nm s ts) -> stmt_back s.
  Proof. intros E C S. exists t, ts, s. now repeat split. Qed.

  Lemma if_exists_back b s ts : chunk T s ts -> exists tb, if_exists b tb /\ chunk T ((if b then str "IF EXISTS " else []) ++ s) (tb ++ ts).
  Proof.
    intros C. destruct b; [|exists []; split; [constructor|exact C]]. exists [KReserved kIF; KReserved kEXISTS]. split; [constructor|].
    apply (c_space T (str "IF") [KReserved kIF] (str "EXISTS" ++ str " " ++ s)); [kw "IF"%string|]. then_kw "EXISTS"%string kEXISTS. exact C.
  Qed.
  Lemma if_not_exists_back b : exists tb, if_not_exists b tb /\ after T (if b then str " IF NOT EXISTS" else []) tb.
  Proof.
    destruct b; [|exists []; split; [constructor|apply a_nil]]. exists [KReserved kIF; KReserved kNOT; KReserved kEXISTS]. split; [constructor|].
    apply (a_space T (str "IF" ++ str " " ++ str "NOT" ++ str " " ++ str "EXISTS")). then_kw "IF"%string kIF. then_kw "NOT"%string kNOT. kw "EXISTS"%string.
  Qed.

  (** ** Keys *)
  Lemma keyParts_map l : forall rs i n, length rs = length l ->
    keyParts T i n l rs = map (fun p => PText (idString T (fst p) ++ (if snd p : bool then str " DESC" else str " ASC"))) (combine l rs).
  Proof. induction l as [|c l IH]; intros [|r rs] i n E; try discriminate; [reflexivity|]. cbn [keyParts combine map fst snd]. f_equal. apply IH. now injection E. Qed.
  Lemma key_back key : plain_key T key -> exists s ts, keyString T key = PText s /\ chunk T s ts /\ index_key (ik_unique key) key ts.
  Proof.
    intros (F & Nd & Ne & Len). destruct key as [u l rs]. cbn [ik_unique ik_columns ik_reverse] in *. unfold keyString. cbn [ik_columns ik_reverse]. rewrite keyParts_map by exact Len.
    destruct (commas_back T (fun p : Z * bool => PText (idString T (fst p) ++ (if snd p then str " DESC" else str " ASC")))
      (fun p p' ts => p' = p /\ ts = [KIdent (fst p); KReserved (if snd p then kDESC else kASC)]) (combine l rs)) as (s & ts & ps & E & C & Li).
    - apply Forall_forall. intros [c r] Hin. apply in_combine_l in Hin. rewrite Forall_forall in F.
      exists (idString T c ++ str " " ++ str (if r then "DESC" else "ASC")), [KIdent c; KReserved (if r then kDESC else kASC)], (c, r). split; [now destruct r|]. split; [|now split].
      apply (c_space T _ [KIdent c]); [now apply c_name, F|]. destruct r; [kw "DESC"%string|kw "ASC"%string].
    - destruct l, rs; try discriminate; contradiction.
    - exists (str "(" ++ s ++ str ")"), (KRune 40 :: ts ++ [KRune 41]). split; [rewrite E; cbn [writes]; reflexivity|]. split; [now apply c_paren|]. constructor; [|exact Nd].
      assert (K : key_columns (map fst (combine l rs)) (map snd (combine l rs)) ts).
      { clear - Li. assert (Dir : forall b, direction b [KReserved (if b then kDESC else kASC)]) by (intros []; constructor).
        induction Li as [p p' ts [-> ->]|p p' ts l0 l' ts' [-> ->] Li IH]; cbn [map]; [constructor; apply Dir|]. apply (kc_more (fst p) (snd p) [KReserved _]); [apply Dir|exact IH]. }
      assert (E1 : forall (l : list Z) (rs : list bool), length rs = length l -> map fst (combine l rs) = l /\ map snd (combine l rs) = rs).
      { clear. induction l as [|c l IH]; intros [|r rs] E; try discriminate; [now split|]. cbn. destruct (IH rs) as [-> ->]; [now injection E|now split]. }
      destruct (E1 l rs Len) as [K1 K2]. now rewrite K1, K2 in K.
  Qed.

  (** ** Foreign keys *)
  Lemma foreign_back fk : plain_foreign T fk -> exists s ts, fkString T fk = PText s /\
    chunk T s ([KReserved kCONSTRAINT; KIdent (fk_name fk)] ++ KReserved kFOREIGN :: KReserved kKEY :: ts) /\ fk_name fk <> 0 /\ foreign_key (fk_name fk) fk ts.
  Proof.
    intros (Hn & Nz & Fc & Nc & Ht & Fr & Hd & Hu). destruct fk as [n c tn rc d u]. cbn [fk_name fk_cols fk_ref fk_refcols fk_ondelete fk_onupdate] in *. subst d u.
    destruct (names_back T c Fc Nc) as (sc & tc & Ec & Cc & Nm). destruct (table_back T tn Ht) as (tt & Ct & Tn). destruct (opt_names_back T rc Fr) as (sr & tr & Er & Ar & On).
    exists (str "CONSTRAINT" ++ str " " ++ idString T n ++ str " " ++ str "FOREIGN" ++ str " " ++ str "KEY" ++ str " " ++ (str "(" ++ sc ++ str ")") ++ str " " ++ str "REFERENCES" ++ str " " ++ tableString T tn ++ sr),
      (KRune 40 :: tc ++ KRune 41 :: KReserved kREFERENCES :: tt ++ tr ++ []).
    split. { unfold fkString. cbn [fk_name fk_cols fk_ref fk_refcols]. destruct (Z.eqb_spec n 0); [contradiction|]. rewrite Ec.
      match goal with |- writes [_; _; _; ?m] = _ => replace m with (PText sr) by (rewrite <- Er; now destruct rc) end. cbn [writes]. rewrite !app_nil_r, <- !app_assoc. reflexivity. }
    split; [|split; [exact Nz|constructor; [exact Nm|exact Tn|exact On|constructor]]].
    then_kw "CONSTRAINT"%string kCONSTRAINT. apply (c_space T _ [KIdent n]); [now apply c_name|]. then_kw "FOREIGN"%string kFOREIGN. then_kw "KEY"%string kKEY.
    replace (KRune 40 :: tc ++ KRune 41 :: KReserved kREFERENCES :: tt ++ tr ++ []) with ((KRune 40 :: tc ++ [KRune 41]) ++ [KReserved kREFERENCES] ++ tt ++ tr) by (cbn [app]; now rewrite app_nil_r, <- app_assoc).
    apply c_space; [now apply c_paren|]. then_kw "REFERENCES"%string kREFERENCES. now apply c_after.
  Qed.

  (** ** CREATE TABLE *)
  Definition column_text (p : Z * coltype * option expr) : printed :=
    let '(c, ct, d) := p in
    PText (idString T c ++ str " " ++ valtypeString (ct_type ct) ++ (if ct_notnull ct then str " NOT NULL" else []) ++
           match d with Some e => str " DEFAULT " ++ fmtS (exprString T e) | None => [] end).
  Fixpoint triples (cols : list Z) (types : list coltype) (ds : list (option expr)) : list (Z * coltype * option expr) :=
    match cols, types, ds with c :: cols', ct :: types', d :: ds' => (c, ct, d) :: triples cols' types' ds' | _, _, _ => [] end.
  Lemma columnParts_map cols : forall types ds i nc nd, length types = length cols -> length ds = length cols ->
    columnParts T i nc nd cols types (map (fun d => match d with Some e => Some (fmtS (exprString T e)) | None => None end) ds) = map column_text (triples cols types ds).
  Proof.
    induction cols as [|c cols IH]; intros [|ct types] [|d ds] i nc nd E1 E2; try discriminate; [reflexivity|]. cbn [map columnParts triples]. f_equal; [now destruct d|]. apply IH; [now injection E1|now injection E2].
  Qed.
  Definition column_read (p p' : Z * coltype * option expr) (ts : list tok) : Prop :=
    let '(c, ct, d) := p in let '(c', ct', d') := p' in
    c' = c /\ ct' = ct /\ option_map strip d' = option_map strip d /\
    exists ct0 tt td, ts = KIdent c :: tt ++ td /\ column_type ct0 tt /\
      forall id nm col cs fs, column_details id nm c col (ct0, None, cs, fs) td (ct, d', cs, fs).
  Lemma type_back ct : plain_type ct -> exists i, chunk T (valtypeString (ct_type ct)) [KIdent i] /\
    column_type {| ct_type := ct_type ct; ct_size := ct_size ct; ct_fixed := ct_fixed ct; ct_notnull := false |} [KIdent i].
  Proof.
    intros [Ef Hin]. rewrite Ef. destruct ct as [t z f n]. cbn [ct_type ct_size ct_fixed] in *.
    assert (K : forall s i, forallb (fun b => (65 <=? bz b) && (bz b <=? 90) || (97 <=? bz b) && (bz b <=? 122)) (str s) = true -> str s <> [] ->
      lookup_bytes keywords (str s) = Some i -> same_but_case (str s) (str s) -> 0 <= i -> chunk T (str s) [KIdent i]).
    { intros s i H1 H2 H3 H4 H5. apply (c_ident HU HL T R s s i); try assumption. now apply keyword_found. }
    cbn [In] in Hin. destruct Hin as [H|[H|[H|[H|[]]]]]; injection H as <- <-.
    - exists 8. split; [|constructor; cbn; tauto]. apply (K "BYTES"%string); try discriminate; vm_compute; reflexivity.
    - exists 4. split; [|constructor; cbn; tauto]. apply (K "BOOL"%string); try discriminate; vm_compute; reflexivity.
    - exists 18. split; [|constructor; cbn; tauto]. apply (K "DOUBLE"%string); try discriminate; vm_compute; reflexivity.
    - exists 23. split; [|constructor; cbn; tauto]. apply (K "INT"%string); try discriminate; vm_compute; reflexivity.
  Qed.
  Lemma column_back c ct d : simple T c -> plain_type ct -> plain_opt T d ->
    exists s ts p', column_text (c, ct, d) = PText s /\ chunk T s ts /\ column_read (c, ct, d) p' ts.
  Proof.
    intros Hc Hct Hd. destruct (type_back ct Hct) as (i & Ci & Ti).
    destruct (clause_back HU HL T R d "DEFAULT" kDEFAULT (str " DEFAULT ") (opt_plain d Hd) ltac:(is_reserved) eq_refl) as (sd & td & d' & Ed & Ad & Od & Hs).
    set (tn := if ct_notnull ct then [KReserved kNOT; KReserved kNULL] else []).
    assert (An : after T (if ct_notnull ct then str " NOT NULL" else []) tn).
    { unfold tn. destruct (ct_notnull ct); [|apply a_nil]. apply (a_space T (str "NOT" ++ str " " ++ str "NULL")). then_kw "NOT"%string kNOT. kw "NULL"%string. }
    exists (idString T c ++ str " " ++ valtypeString (ct_type ct) ++ (if ct_notnull ct then str " NOT NULL" else []) ++ sd), ([KIdent c] ++ [KIdent i] ++ tn ++ td), (c, ct, d').
    split; [unfold column_text; now rewrite <- Ed|]. split; [apply c_space; [now apply c_name|]; apply c_after; [exact Ci|now apply a_app]|].
    split; [reflexivity|]. split; [reflexivity|]. split; [exact Hs|].
    exists {| ct_type := ct_type ct; ct_size := ct_size ct; ct_fixed := ct_fixed ct; ct_notnull := false |}, [KIdent i], (tn ++ td). split; [reflexivity|]. split; [exact Ti|].
    intros id nm col cs fs.
    assert (K : column_details id nm c col (ct, None, cs, fs) td (ct, d', cs, fs)).
    { specialize (Od id nm). clear - Od. inversion Od; subst; [constructor|]. match goal with |- context [KReserved kDEFAULT :: ?l] => rewrite <- (app_nil_r l) end. eapply cd_default; [eassumption|constructor]. }
    unfold tn. destruct ct as [t z f []]; cbn [ct_notnull ct_type ct_size ct_fixed app] in *; [now constructor|exact K].
  Qed.

  Section Columns.
    Variable id : bytes -> Z.
    Variable nm : Z -> bytes.
    Definition table_of (ps : list (Z * coltype * option expr)) (cs : list (constraint expr)) (fs : list foreignkey) : ctable :=
      {| cb_cols := map (fun p => fst (fst p)) ps; cb_types := map (fun p => snd (fst p)) ps; cb_defaults := map snd ps; cb_csts := cs; cb_fks := fs |}.
    Lemma columns_read l l' ts : listed column_read l l' ts -> forall done, NoDup (map (fun p => fst (fst p)) (done ++ l)) ->
      table_details id nm (table_of done [] []) ts (table_of (done ++ l') [] []).
    Proof.
      assert (One : forall p p' ts done rest, column_read p p' ts -> NoDup (map (fun p => fst (fst p)) (done ++ p :: rest)) -> table_detail id nm (table_of done [] []) ts (table_of (done ++ [p']) [] [])).
      { intros [[c ct] d] [[c' ct'] d'] ts0 done rest (-> & -> & _ & ct0 & tt & td & -> & Ty & De) Nd. unfold table_of. rewrite !map_app. cbn [map fst snd].
        apply (td_column id nm (table_of done [] []) c ct0 tt ct d' [] [] td); [|exact Ty|apply De].
        cbn [cb_cols table_of]. rewrite map_app in Nd. cbn [map fst] in Nd. apply NoDup_remove_2 in Nd. intros H. apply Nd, in_or_app. now left. }
      induction 1 as [p p' ts H|p p' ts l l' ts' H Li IH]; intros done Nd.
      - constructor. eapply One; eassumption.
      - apply (tds_more id nm _ ts (table_of (done ++ [p']) [] [])); [eapply One; eassumption|].
        replace (done ++ p' :: l') with ((done ++ [p']) ++ l') by (now rewrite <- app_assoc). apply IH. destruct p as [[c ct] d], p' as [[c' ct'] d'], H as (-> & _). rewrite <- app_assoc, !map_app in *. exact Nd.
    Qed.
    Lemma details_snoc s ts s1 : table_details id nm s ts s1 -> forall ts' s2, table_detail id nm s1 ts' s2 -> table_details id nm s (ts ++ KRune 44 :: ts') s2.
    Proof.
      induction 1 as [s ts s' H|s ts s1 ts' s' H D IH]; intros ts2 s2 H2; [apply (tds_more _ _ _ _ s'); [exact H|now constructor]|].
      rewrite <- app_assoc. apply (tds_more _ _ _ _ s1); [exact H|]. now apply IH.
    Qed.
  End Columns.

  Definition check_text (c : constraint expr) : bytes := match con_check c with Some e => fmtS (exprString T e) | None => nilText end.
  Definition constraint_text (c : constraint expr) : bytes := constraintString T (con_type c) (con_name c) (con_key c) (check_text c).
  Definition strip_constraint (c : constraint expr) : constraint expr :=
    {| con_type := con_type c; con_name := con_name c; con_colnum := con_colnum c; con_key := con_key c; con_check := option_map strip (con_check c) |}.
  Definition free (c c' : constraint expr) : Prop :=
    con_type c' <> CheckConstraint -> con_name c <> con_name c' /\ ~ (con_type c = PrimaryConstraint /\ con_type c' = PrimaryConstraint) /\
      (ik_columns (con_key c) <> ik_columns (con_key c') \/ ik_reverse (con_key c) <> ik_reverse (con_key c')).

  (** The text of a constraint, and what it adds. *)
  Lemma constraint_back c : plain_constraint T c -> exists ts c', after T (constraint_text c) (KRune 44 :: ts) /\ strip_constraint c' = strip_constraint c /\
    con_type c' = con_type c /\ con_name c' = con_name c /\ con_key c' = con_key c /\
    forall id nm ps cs fs, Forall (fun c0 => free c0 c) cs -> table_detail id nm (table_of ps cs fs) ts (table_of ps (cs ++ [c']) fs).
  Proof.
    intros (Hn & Nz & Hcol & H). destruct c as [ty n col key chk]. cbn [con_type con_name con_colnum con_key con_check] in *. subst col. unfold constraint_text, check_text. cbn [con_type con_name con_key con_check].
    assert (Oc : opt_constraint n [KReserved kCONSTRAINT; KIdent n]) by now constructor.
    destruct chk as [e|].
    - destruct H as (-> & -> & He). destruct (expr_plain _ _ He) as (s & ts & e' & E & C & Re). pose proof (whole_read _ _ _ Re) as W. destruct Re as (_ & _ & _ & _ & Hs).
      exists ([KReserved kCONSTRAINT; KIdent n] ++ KReserved kCHECK :: KRune 40 :: ts ++ [KRune 41]), (check_constraint n (-1) e'). split.
      { cbn [constraintString]. rewrite E. cbn [fmtS]. apply (a_comma T (str "CONSTRAINT" ++ str " " ++ idString T n ++ str " " ++ str "CHECK" ++ str " " ++ (str "(" ++ s ++ str ")"))).
        then_kw "CONSTRAINT"%string kCONSTRAINT. apply (c_space T _ [KIdent n]); [now apply c_name|]. then_kw "CHECK"%string kCHECK. now apply c_paren. }
      split; [unfold strip_constraint, check_constraint; cbn; now rewrite Hs|]. repeat (split; [reflexivity|]). intros id nm ps cs fs _. apply (td_check id nm (table_of ps cs fs)); [exact Oc|apply W].
    - destruct H as (Hty & Hk & Hu). destruct (key_back key Hk) as (s & ts & E & C & Ik). rewrite Hu in Ik.
      set (pr := match ty with PrimaryConstraint => true | _ => false end). set (tw := if pr then [KReserved kPRIMARY; KReserved kKEY] else [KReserved kUNIQUE]).
      assert (Ety : ty = if pr then PrimaryConstraint else UniqueConstraint) by (destruct Hty as [<-|[<-|[]]]; reflexivity).
      exists ([KReserved kCONSTRAINT; KIdent n] ++ tw ++ ts), (key_constraint ty n key). split.
      { replace (constraintString T ty n key nilText) with (str ", " ++ str "CONSTRAINT" ++ str " " ++ idString T n ++ str " " ++ str (if pr then "PRIMARY KEY" else "UNIQUE") ++ str " " ++ s)
          by (destruct Hty as [<-|[<-|[]]]; cbn [constraintString pr]; rewrite E; reflexivity).
        apply a_comma. then_kw "CONSTRAINT"%string kCONSTRAINT. apply (c_space T _ [KIdent n]); [now apply c_name|]. apply c_space; [|exact C]. unfold tw. destruct pr; [|kw "UNIQUE"%string].
        apply (c_space T (str "PRIMARY") [KReserved kPRIMARY] (str "KEY")); [kw "PRIMARY"%string|kw "KEY"%string]. }
      split; [reflexivity|]. repeat (split; [reflexivity|]). intros id nm ps cs fs F.
      assert (En : key_name id nm n (ik_columns key) (if pr then str "primary" else str "unique") = n) by (unfold key_name; destruct (Z.eqb_spec n 0); [contradiction|reflexivity]).
      pose proof (td_key id nm (table_of ps cs fs) n [KReserved kCONSTRAINT; KIdent n] pr key ts Oc Ik) as D. rewrite En, <- Ety in D. apply D.
      cbn [table_of cb_csts]. eapply Forall_impl; [|exact F]. intros c0 Fr. unfold free in Fr. cbn [con_type con_name con_key] in Fr.
      apply Fr. destruct Hty as [<-|[<-|[]]]; discriminate.
  Qed.
  Lemma constraints_back csts : forall cs, Forall (plain_constraint T) csts -> no_clash csts -> Forall (fun c => Forall (fun c0 => free c0 c) cs) csts ->
    exists ts cs', after T (flat_map constraint_text csts) ts /\ map strip_constraint cs' = map strip_constraint csts /\
      forall id nm ps fs s t, table_details id nm s t (table_of ps cs fs) -> table_details id nm s (t ++ ts) (table_of ps (cs ++ cs') fs).
  Proof.
    induction csts as [|c csts IH]; intros cs Hp Hn Hf.
    - exists [], []. split; [apply a_nil|]. split; [reflexivity|]. intros. now rewrite !app_nil_r.
    - inversion Hp as [|? ? Hc Hp']; subst. inversion Hf as [|? ? Hfc Hf']; subst. destruct Hn as [Hc1 Hn]. destruct (constraint_back c Hc) as (t1 & c' & A1 & S1 & K1 & K2 & K3 & D1).
      destruct (IH (cs ++ [c'])) as (t2 & cs' & A2 & S2 & D2); [exact Hp'|exact Hn| |].
      { rewrite Forall_forall in *. intros x Hx. apply Forall_app. split; [now apply Hf'|]. constructor; [|constructor]. unfold free. rewrite K1, K2, K3. now apply Hc1. }
      exists ((KRune 44 :: t1) ++ t2), (c' :: cs'). split; [cbn [flat_map]; now apply a_app|]. split; [cbn [map]; now rewrite S1, S2|].
      intros id nm ps fs s t H. replace (cs ++ c' :: cs') with ((cs ++ [c']) ++ cs') by (now rewrite <- app_assoc). rewrite app_assoc. apply D2. apply (details_snoc id nm s t _ H). now apply D1.
  Qed.
  Lemma writes_cons p l s s' : p = PText s -> writes l = PText s' -> writes (p :: l) = PText (s ++ s').
  Proof. intros -> E. cbn [writes]. now rewrite E. Qed.
  Lemma foreigns_back fks : Forall (plain_foreign T) fks ->
    exists s ts, writes (map (fun fk => writes [PText (str ", "); fkString T fk]) fks) = PText s /\ after T s ts /\
      forall id nm ps cs fs s t, table_details id nm s t (table_of ps cs fs) -> table_details id nm s (t ++ ts) (table_of ps cs (fs ++ fks)).
  Proof.
    induction 1 as [|fk fks Hfk F (s & ts & E & A & D)]; [exists [], []; split; [reflexivity|]; split; [apply a_nil|]; intros; now rewrite !app_nil_r|].
    destruct (foreign_back fk Hfk) as (s1 & t1 & E1 & C1 & Nz & Fk). exists ((str ", " ++ s1) ++ s), ((KRune 44 :: [KReserved kCONSTRAINT; KIdent (fk_name fk)] ++ KReserved kFOREIGN :: KReserved kKEY :: t1) ++ ts).
    split; [|split; [apply a_app; [now apply a_comma|exact A]|]].
    { cbn [map]. apply writes_cons; [|exact E]. rewrite E1. cbn [writes]. now rewrite app_nil_r. }
    intros id nm ps cs fs s0 t H. replace (fs ++ fk :: fks) with ((fs ++ [fk]) ++ fks) by (now rewrite <- app_assoc). rewrite app_assoc. apply D. apply (details_snoc id nm s0 t _ H).
    apply (td_foreign id nm (table_of ps cs fs) (fk_name fk) [KReserved kCONSTRAINT; KIdent (fk_name fk)]); [now constructor|exact Fk].
  Qed.

  Lemma triples_of cols : forall types ds, length types = length cols -> length ds = length cols ->
    map (fun p => fst (fst p)) (triples cols types ds) = cols /\ map (fun p => snd (fst p)) (triples cols types ds) = types /\ map snd (triples cols types ds) = ds.
  Proof.
    induction cols as [|c cols IH]; intros [|ct types] [|d ds] E1 E2; try discriminate; [now repeat split|]. cbn. destruct (IH types ds) as (-> & -> & ->); [now injection E1|now injection E2|now repeat split].
  Qed.
  Lemma triples_all cols : forall types ds, Forall (simple T) cols -> Forall plain_type types -> Forall (plain_opt T) ds ->
    Forall (fun p => exists s ts p', column_text p = PText s /\ chunk T s ts /\ column_read p p' ts) (triples cols types ds).
  Proof.
    induction cols as [|c cols IH]; intros [|ct types] [|d ds] H1 H2 H3; try constructor; inversion H1; inversion H2; inversion H3; subst; [now apply column_back|now apply IH].
  Qed.
  Lemma columns_same l l' ts : listed column_read l l' ts ->
    map (fun p => fst (fst p)) l' = map (fun p => fst (fst p)) l /\ map (fun p => snd (fst p)) l' = map (fun p => snd (fst p)) l /\
    map (option_map strip) (map snd l') = map (option_map strip) (map snd l).
  Proof.
    induction 1 as [[[c ct] d] [[c' ct'] d'] ts (-> & -> & E & _)|[[c ct] d] [[c' ct'] d'] ts l l' ts' (-> & -> & E & _) Li (I1 & I2 & I3)]; cbn [map fst snd].
    - rewrite E. now repeat split.
    - rewrite E, I1, I2, I3. now repeat split.
  Qed.
  Lemma create_table_text tn cols types ds b csts fks : stmtString T (SCreateTable tn cols types ds b csts fks) =
    writes [PText (str "CREATE TABLE" ++ (if b then str " IF NOT EXISTS" else []) ++ str " " ++ tableString T tn ++ str " (");
            commas (columnParts T 0 (zlen cols) (zlen ds) cols types (map (fun d => match d with Some e => Some (fmtS (exprString T e)) | None => None end) ds));
            PText (flat_map constraint_text csts);
            writes (map (fun fk => writes [PText (str ", "); fkString T fk]) fks);
            PText (str ")")].
  Proof. reflexivity. Qed.
  Lemma strip_create_table tn cols types ds b csts fks : strip_stmt (SCreateTable tn cols types ds b csts fks) =
    SCreateTable tn cols types (map (option_map strip) ds) b (map strip_constraint csts) fks.
  Proof. reflexivity. Qed.
  Lemma create_table_back tn cols types defaults b csts fks : plain_table T tn ->
      Forall (simple T) cols -> NoDup cols -> cols <> [] -> length types = length cols -> length defaults = length cols ->
      Forall plain_type types -> Forall (plain_opt T) defaults -> Forall (plain_constraint T) csts -> no_clash csts ->
      Forall (plain_foreign T) fks -> stmt_back (SCreateTable tn cols types defaults b csts fks).
  Proof.
    intros Ht Hc Nd Ne L1 L2 Hty Hd Hcs Hcl Hfk. destruct (table_back T tn Ht) as (tt & Ct & Tn). destruct (if_not_exists_back b) as (tb & Ib & Ab).
    destruct (triples_of cols types defaults L1 L2) as (M1 & M2 & M3).
    destruct (commas_back T column_text column_read (triples cols types defaults) (triples_all _ _ _ Hc Hty Hd)) as (s1 & t1 & l1 & E1 & C1 & Li).
    { intros K. rewrite K in M1. cbn in M1. now subst. }
    assert (Ml : map (fun p => fst (fst p)) l1 = cols /\ map (fun p => snd (fst p)) l1 = types /\ map (option_map strip) (map snd l1) = map (option_map strip) defaults).
    { destruct (columns_same _ _ _ Li) as (I1 & I2 & I3). rewrite M1 in I1. rewrite M2 in I2. rewrite M3 in I3. now repeat split. }
    destruct Ml as (Ml1 & Ml2 & Ml3).
    destruct (constraints_back csts [] Hcs Hcl) as (t2 & cs' & A2 & S2 & D2); [apply Forall_forall; intros; constructor|].
    destruct (foreigns_back fks Hfk) as (s3 & t3 & E3 & A3 & D3).
    exists ((str "CREATE" ++ str " " ++ str "TABLE") ++ (if b then str " IF NOT EXISTS" else []) ++ str " " ++ tableString T tn ++ str " " ++ (str "(" ++ (s1 ++ flat_map constraint_text csts ++ s3) ++ str ")")),
      ([KReserved kCREATE; KReserved kTABLE] ++ tb ++ tt ++ KRune 40 :: (t1 ++ t2 ++ t3) ++ [KRune 41]), (SCreateTable tn cols types (map snd l1) b cs' fks).
    split. { rewrite create_table_text, columnParts_map by assumption. rewrite E1, E3. cbn [writes]. rewrite ?app_nil_r, <- !app_assoc. reflexivity. }
    split. { apply c_after; [apply (c_space T _ [KReserved kCREATE]); [kw "CREATE"%string|kw "TABLE"%string]|]. apply a_app; [exact Ab|]. apply a_space. apply c_space; [exact Ct|]. apply c_paren. apply c_after; [exact C1|]. now apply a_app. }
    split; [|rewrite !strip_create_table; now rewrite Ml3, S2].
    intros id nm _.
    assert (De : table_details id nm noTable (t1 ++ t2 ++ t3) (table_of l1 cs' fks)).
    { rewrite app_assoc. apply (D3 id nm l1 cs' []). apply (D2 id nm l1 [] noTable). apply (columns_read id nm _ _ _ Li []). cbn [app]. now rewrite M1. }
    pose proof (say_create_table id nm b tn (table_of l1 cs' fks) tb tt _ Ib Tn De) as K. cbn [table_of cb_cols cb_types cb_defaults cb_csts cb_fks] in K. rewrite Ml1, Ml2 in K. exact K.
  Qed.

  (** ** The other statements *)
  Lemma action_back a : plain_action T a -> exists s ts, actionString T a = PText s /\ chunk T s ts /\ alter_action a ts.
  Proof.
    destruct a as [fk|i b|c ct]; cbn [plain_action].
    - intros H. destruct (foreign_back fk H) as (s & ts & E & C & Nz & Fk). exists (str "ADD" ++ str " " ++ s), ([KReserved kADD] ++ [KReserved kCONSTRAINT; KIdent (fk_name fk)] ++ KReserved kFOREIGN :: KReserved kKEY :: ts).
      split; [change (actionString T (AddForeignKey fk)) with (PText (str "ADD " ++ fmtS (fkString T fk))); rewrite E; reflexivity|]. split; [apply c_space; [kw "ADD"%string|exact C]|]. cbn [app]. apply (aa_foreign (fk_name fk) [_; _]); [now constructor|exact Fk].
    - intros [Hi Nz]. destruct (if_exists_back b _ _ (c_name T i Hi)) as (tb & Ib & C). exists (str "DROP" ++ str " " ++ str "CONSTRAINT" ++ str " " ++ (if b then str "IF EXISTS " else []) ++ idString T i), ([KReserved kDROP; KReserved kCONSTRAINT] ++ tb ++ [KIdent i]).
      split; [unfold actionString; destruct (Z.eqb_spec i 0); [contradiction|]; destruct b; reflexivity|]. split; [then_kw "DROP"%string kDROP; then_kw "CONSTRAINT"%string kCONSTRAINT; exact C|].
      destruct Ib; constructor.
    - intros [Hc Hct]. exists (str "ALTER" ++ str " " ++ str "COLUMN" ++ str " " ++ idString T c ++ str " " ++ str "DROP" ++ str " " ++ contypeString ct),
        ([KReserved kALTER; KReserved kCOLUMN; KIdent c; KReserved kDROP] ++ match ct with NotNullConstraint => [KReserved kNOT; KReserved kNULL] | _ => [KReserved kDEFAULT] end).
      split; [reflexivity|]. split.
      { then_kw "ALTER"%string kALTER. then_kw "COLUMN"%string kCOLUMN. apply (c_space T _ [KIdent c]); [now apply c_name|]. then_kw "DROP"%string kDROP. destruct Hct as [<-|[<-|[]]]; [kw "DEFAULT"%string|].
        apply (c_space T (str "NOT") [KReserved kNOT] (str "NULL")); [kw "NOT"%string|kw "NULL"%string]. }
      destruct Hct as [<-|[<-|[]]]; [apply (aa_default c [KReserved kCOLUMN])|apply (aa_not_null c [KReserved kCOLUMN])]; cbn; tauto.
  Qed.

  Lemma option_back v : plain_option T v -> exists t, chunk T v [t] /\ forall nm : Z -> bytes, (forall i, simple T i -> nm i = idString T i) -> option_value nm v t.
  Proof.
    intros [(i & Hi & ->)|(i & Hi & ->)].
    - exists (KIdent i). split; [now apply c_name|]. intros nm H. rewrite <- (H i Hi). constructor.
    - exists (KInteger i). split; [now apply c_int|]. intros. constructor.
  Qed.
  Lemma options_back l : Forall (fun o => simple T (fst o) /\ plain_option T (snd o)) l -> l <> [] ->
    exists ts, after T (flat_map (fun o => str " " ++ idString T (fst o) ++ str " = " ++ snd o) l) ts /\
      forall nm : Z -> bytes, (forall i, simple T i -> nm i = idString T i) -> db_options nm l ts.
  Proof.
    intros F N. induction F as [|[i v] l [Hi Hv] F IH]; [contradiction|]. cbn [fst snd] in *. destruct (option_back v Hv) as (t & C & O).
    assert (A : after T (str " " ++ idString T i ++ str " = " ++ v) [KIdent i; KRune 61; t]).
    { apply (a_space T (idString T i ++ str " " ++ str "= " ++ v)). apply (c_space T _ [KIdent i]); [now apply c_name|]. now apply c_eq. }
    destruct l as [|o l].
    - exists [KIdent i; KRune 61; t]. split; [cbn [flat_map fst snd]; now rewrite app_nil_r|]. intros nm H. apply (do_one nm i v t [KRune 61]); [now apply O|cbn; tauto].
    - destruct (IH ltac:(discriminate)) as (ts & A2 & D). exists ([KIdent i; KRune 61; t] ++ ts). split; [cbn [flat_map fst snd] in *; now apply a_app|].
      intros nm H. apply (do_more nm i v t [KRune 61]); [now apply O|cbn; tauto|now apply D].
  Qed.

  Lemma value_back v : plain_value v -> exists ts, chunk T v ts /\ forall id nm, setting id nm v ts.
  Proof.
    assert (W : forall e ts id nm, operand id nm e ts -> tight e -> whole id nm e ts) by (intros e ts id nm H1 H2; apply (whole_intro _ _ e); [now constructor|exact H2|reflexivity]).
    intros [->|[->|(i & Hi & ->)]].
    - exists [KReserved kTRUE]. split; [apply (c_word HU HL T R "true" "TRUE"); is_reserved|]. intros. apply set_true, W; constructor.
    - exists [KReserved kFALSE]. split; [apply (c_word HU HL T R "false" "FALSE"); is_reserved|]. intros. apply set_false, W; constructor.
    - exists [KInteger i]. split; [now apply c_int|]. intros. apply set_integer, W; constructor.
  Qed.

  Lemma insert_text tn cols rows : stmtString T (SInsertValues tn cols rows) =
    writes [PText (str "INSERT INTO " ++ tableString T tn ++ str " ");
            match cols with [] => PText [] | _ => writes [PText (str "("); idCommas T cols; PText (str ") ")] end;
            PText (str "VALUES");
            rowParts true (map (map (fun v => match v with Some e => exprString T e | None => PPanic nil_interface end)) rows)].
  Proof. reflexivity. Qed.
  Lemma insert_back tn cols rows : plain_table T tn -> Forall (simple T) cols -> NoDup cols -> rows <> [] -> plain_rows T rows -> stmt_back (SInsertValues tn cols (map (map Some) rows)).
  Proof.
    intros Ht Hc Nd Nr Hr. destruct (table_back T tn Ht) as (tt & Ct & Tn). destruct (opt_names_back T cols Hc) as (sc & tc & Ec & Ac & On).
    destruct (rows_back T rows true (rows_plain _ Hr) Nr) as (s & ts & ls' & E & C & _ & I & Hs & _).
    exists ((str "INSERT" ++ str " " ++ str "INTO" ++ str " " ++ tableString T tn) ++ sc ++ str " " ++ str "VALUES" ++ str " " ++ s), (([KReserved kINSERT; KReserved kINTO] ++ tt) ++ tc ++ [KReserved kVALUES] ++ ts), (SInsertValues tn cols (map (map Some) ls')).
    split. { rewrite insert_text. replace (map (map (fun v => match v with Some e => exprString T e | None => PPanic nil_interface end)) (map (map Some) rows)) with (map (map (exprString T)) rows)
        by (rewrite map_map; apply map_ext; intros l; now rewrite map_map). rewrite E. destruct cols as [|c cols]; [injection Ec as <-; cbn [writes]; rewrite ?app_nil_r, <- ?app_assoc; reflexivity|].
      destruct (idCommas T (c :: cols)) as [t|]; [|discriminate]. assert (Es : sc = str " (" ++ t ++ str ")") by (injection Ec as <-; reflexivity). rewrite Es. cbn [writes]. rewrite ?app_nil_r, <- !app_assoc. reflexivity. }
    split. { apply c_after; [apply (c_space T _ [KReserved kINSERT]); [kw "INSERT"%string|]; then_kw "INTO"%string kINTO; exact Ct|]. apply a_app; [exact Ac|]. apply a_space. then_kw "VALUES"%string kVALUES. exact C. }
    split; [intros; rewrite <- app_assoc; cbn [app]; now constructor|].
    change (SInsertValues tn cols (map (map (option_map strip)) (map (map Some) ls')) = SInsertValues tn cols (map (map (option_map strip)) (map (map Some) rows))). f_equal.
    assert (K : forall ls : list (list expr), map (map (option_map strip)) (map (map Some) ls) = map (map Some) (map (map strip) ls)).
    { intros ls. rewrite !map_map. apply map_ext. intros l. now rewrite !map_map. }
    now rewrite !K, Hs.
  Qed.

  Lemma update_text tn l w : stmtString T (SUpdate tn l w) =
    writes [PText (str "UPDATE " ++ tableString T tn ++ str " SET ");
            commas (map (fun u : Z * option expr => PText (idString T (fst u) ++ str " = " ++ match snd u with Some e => fmtS (exprString T e) | None => nilText end)) l);
            PText match w with Some e => str " WHERE " ++ fmtS (exprString T e) | None => [] end].
  Proof. reflexivity. Qed.
  Lemma update_back tn l w : plain_table T tn -> l <> [] -> Forall (fun u => simple T (fst u) /\ plain T false (snd u)) l -> plain_opt T w ->
    stmt_back (SUpdate tn (map (fun u => (fst u, Some (snd u))) l) w).
  Proof.
    intros Ht Nl Hl Hw. destruct (table_back T tn Ht) as (tt & Ct & Tn).
    destruct (clause_back HU HL T R w "WHERE" kWHERE (str " WHERE ") (opt_plain w Hw) ltac:(is_reserved) eq_refl) as (sw & tw & w' & Ew & Aw & Ow & Hsw).
    destruct (commas_back T (fun u => PText (idString T (fst u) ++ str " = " ++ fmtS (exprString T (snd u))))
      (fun u u' ts => fst u' = fst u /\ strip (snd u') = strip (snd u) /\ exists te, ts = KIdent (fst u) :: KRune 61 :: te /\ forall id nm, whole id nm (snd u') te) l) as (s & ts & l' & E & C & Li); [|exact Nl|].
    - eapply Forall_impl; [|exact Hl]. intros [i e] [Hi He]. cbn [fst snd] in *. destruct (expr_plain _ _ He) as (s & ts & e' & E & C & Re). pose proof (whole_read _ _ _ Re) as W. destruct Re as (_ & _ & _ & _ & Hs).
      exists (idString T i ++ str " " ++ str "= " ++ s), ([KIdent i] ++ KRune 61 :: ts), (i, e'). split; [rewrite E; reflexivity|]. split; [apply c_space; [now apply c_name|now apply c_eq]|].
      split; [reflexivity|]. split; [exact Hs|]. exists ts. now split.
    - exists ((str "UPDATE" ++ str " " ++ tableString T tn) ++ str " " ++ (str "SET" ++ str " " ++ s) ++ sw), (([KReserved kUPDATE] ++ tt) ++ ([KReserved kSET] ++ ts) ++ tw), (SUpdate tn (map (fun u => (fst u, Some (snd u))) l') w').
      split. { rewrite update_text, map_map. cbn [fst snd]. rewrite E, Ew. cbn [writes]. rewrite ?app_nil_r, <- !app_assoc. reflexivity. }
      split. { apply c_space; [then_kw "UPDATE"%string kUPDATE; exact Ct|]. apply c_after; [then_kw "SET"%string kSET; exact C|exact Aw]. }
      split.
      + intros id nm _. rewrite <- app_assoc. cbn [app]. apply say_update; [exact Tn| |apply Ow]. clear - Li. induction Li as [u u' ts (E1 & E2 & te & -> & W)|u u' ts l l' ts' (E1 & E2 & te & -> & W) Li IH]; cbn [map]; rewrite E1.
        * constructor. constructor. apply W.
        * cbn [app]. apply up_more; [constructor; apply W|exact IH].
      + change (SUpdate tn (map (fun p => (fst p, option_map strip (snd p))) (map (fun u => (fst u, Some (snd u))) l')) (option_map strip w') =
          SUpdate tn (map (fun p => (fst p, option_map strip (snd p))) (map (fun u => (fst u, Some (snd u))) l)) (option_map strip w)). rewrite Hsw. f_equal. rewrite !map_map. cbn [fst snd option_map].
        clear - Li. induction Li as [u u' ts (E1 & E2 & _)|u u' ts l l' ts' (E1 & E2 & _) Li IH]; cbn [map]; rewrite E1, E2; [reflexivity|now rewrite IH].
  Qed.

  Lemma plain_stmt_back s : plain_stmt T s -> stmt_back s.
  Proof.
    destruct 1.
    - apply (stmt_atom _ (str "BEGIN") [KReserved kBEGIN]); [reflexivity|kw "BEGIN"%string|constructor].
    - apply (stmt_atom _ (str "COMMIT") [KReserved kCOMMIT]); [reflexivity|kw "COMMIT"%string|constructor].
    - apply (stmt_atom _ (str "ROLLBACK") [KReserved kROLLBACK]); [reflexivity|kw "ROLLBACK"%string|constructor].
    - destruct (query_plain s H) as (t & ts & s' & E & C & Q & Hs & _). exists t, ts, s'. split; [exact E|]. split; [exact C|]. split; [|exact Hs]. intros. apply Q.
    - destruct (query_plain _ H) as (t & ts & s' & E & C & Q & Hs & ts' & -> & Se).
      exists (str "EXPLAIN" ++ str " " ++ t), (KReserved kEXPLAIN :: KReserved kSELECT :: ts'), (SExplain s' false).
      split; [change (PText (str "EXPLAIN " ++ fmtS (stmtString T (SSelect r f w g h o))) = PText (str "EXPLAIN" ++ str " " ++ t)); now rewrite E|].
      split; [then_kw "EXPLAIN"%string kEXPLAIN; exact C|]. split; [intros; constructor; apply Se|].
      change (SExplain (strip_stmt s') false = SExplain (strip_stmt (SSelect r f w g h o)) false). now rewrite Hs.
    - destruct (value_back v H0) as (ts & C & Se).
      assert (K : exists k, chunk T (idString T i) [k] /\ ((i = kDATABASE /\ k = KReserved kDATABASE) \/ (i = kSCHEMA /\ k = KReserved kSCHEMA) \/ k = KIdent i)).
      { destruct H as [H|[<-|[<-|[]]]]; [exists (KIdent i); split; [now apply c_name|tauto]|exists (KReserved kDATABASE)|exists (KReserved kSCHEMA)].
        - split; [|tauto]. replace (idString T kDATABASE) with (str "DATABASE") by (symmetry; apply keyword_text; [exact R|apply keyword_found; vm_compute; reflexivity]). kw "DATABASE"%string.
        - split; [|tauto]. replace (idString T kSCHEMA) with (str "SCHEMA") by (symmetry; apply keyword_text; [exact R|apply keyword_found; vm_compute; reflexivity]). kw "SCHEMA"%string. }
      destruct K as (k & Ck & Hk). apply (stmt_atom _ (str "SET" ++ str " " ++ idString T i ++ str " " ++ str "TO" ++ str " " ++ v) ([KReserved kSET] ++ [k] ++ [KReserved kTO] ++ ts)).
      + reflexivity.
      + then_kw "SET"%string kSET. apply c_space; [exact Ck|]. then_kw "TO"%string kTO. exact C.
      + intros. cbn [app]. now apply say_set_to.
    - now apply create_table_back.
    - destruct (table_back T tn H0) as (tt & Ct & Tn). destruct (if_not_exists_back b) as (tb & Ib & Ab). destruct (key_back key H1) as (sk & tk & Ek & Ck & Ik).
      set (tu := if ik_unique key then [KReserved kUNIQUE] else []).
      assert (Au : after T (if ik_unique key then str " UNIQUE" else []) tu) by (unfold tu; destruct (ik_unique key); [apply (a_space T (str "UNIQUE")); kw "UNIQUE"%string|apply a_nil]).
      apply (stmt_atom _ (str "CREATE" ++ (if ik_unique key then str " UNIQUE" else []) ++ (str " " ++ str "INDEX") ++ (if b then str " IF NOT EXISTS" else []) ++ (str " " ++ idString T i ++ str " " ++ str "ON" ++ str " " ++ tableString T tn ++ str " " ++ sk))
        ([KReserved kCREATE] ++ tu ++ [KReserved kINDEX] ++ tb ++ [KIdent i] ++ [KReserved kON] ++ tt ++ tk)).
      + change (stmtString T (SCreateIndex i tn key b)) with (PText (str "CREATE" ++ (if ik_unique key then str " UNIQUE" else []) ++ str " INDEX" ++ (if b then str " IF NOT EXISTS" else []) ++ str " " ++ idString T i ++ str " ON " ++ tableString T tn ++ str " " ++ fmtS (keyString T key))).
        rewrite Ek. cbn [fmtS]. rewrite <- !app_assoc. reflexivity.
      + apply c_after; [kw "CREATE"%string|]. apply a_app; [exact Au|]. apply a_app; [apply a_space; kw "INDEX"%string|]. apply a_app; [exact Ab|]. apply a_space. apply c_space; [now apply c_name|]. then_kw "ON"%string kON. now apply c_space.
      + intros. cbn [app]. apply (say_create_index id nm (ik_unique key) b i tn key tb tt [] tk); try assumption. now left.
    - destruct options as [|o options].
      + apply (stmt_atom _ (str "CREATE" ++ str " " ++ str "DATABASE" ++ str " " ++ idString T i) [KReserved kCREATE; KReserved kDATABASE; KIdent i]).
        * cbn [stmtString optionsString]. now rewrite app_nil_r.
        * then_kw "CREATE"%string kCREATE. then_kw "DATABASE"%string kDATABASE. now apply c_name.
        * constructor.
      + destruct (options_back (o :: options) H0 ltac:(discriminate)) as (ts & A & D).
        apply (stmt_atom _ (str "CREATE" ++ str " " ++ str "DATABASE" ++ str " " ++ idString T i ++ str " " ++ str "WITH" ++ flat_map (fun o => str " " ++ idString T (fst o) ++ str " = " ++ snd o) (o :: options)) ([KReserved kCREATE] ++ [KReserved kDATABASE] ++ [KIdent i] ++ [KReserved kWITH] ++ ts)).
        * reflexivity.
        * then_kw "CREATE"%string kCREATE. then_kw "DATABASE"%string kDATABASE. apply c_space; [now apply c_name|]. apply c_after; [kw "WITH"%string|exact A].
        * intros. cbn [app]. constructor; [now apply D|assumption].
    - destruct (schema_back T sn H) as (ts & C & Sn). apply (stmt_atom _ (str "CREATE" ++ str " " ++ str "SCHEMA" ++ str " " ++ schemaString T sn) ([KReserved kCREATE] ++ [KReserved kSCHEMA] ++ ts)).
      + reflexivity.
      + then_kw "CREATE"%string kCREATE. then_kw "SCHEMA"%string kSCHEMA. exact C.
      + intros. now constructor.
    - destruct (table_back T tn H) as (tt & Ct & Tn).
      destruct (commas_back T (actionString T) (fun a a' ts => a' = a /\ alter_action a ts) l) as (s & ts & l' & E & C & Li); [|assumption|].
      { eapply Forall_impl; [|exact H1]. intros a Ha. destruct (action_back a Ha) as (s & ts & E & C & A). exists s, ts, a. now repeat split. }
      apply (stmt_atom _ (str "ALTER" ++ str " " ++ str "TABLE" ++ str " " ++ tableString T tn ++ str " " ++ s) ([KReserved kALTER] ++ [KReserved kTABLE] ++ tt ++ ts)).
      + cbn [stmtString]. rewrite E. cbn [writes]. rewrite app_nil_r, <- !app_assoc. reflexivity.
      + then_kw "ALTER"%string kALTER. then_kw "TABLE"%string kTABLE. now apply c_space.
      + intros. cbn [app]. constructor; [exact Tn|]. clear - Li. induction Li as [a a' ts [-> A]|a a' ts l l' ts' [-> A] Li IH]; [constructor; exact A|]. constructor; [exact A|exact IH].
    - destruct (commas_back T (fun tn => PText (tableString T tn)) (fun tn tn' ts => tn' = tn /\ table_name tn ts) l) as (s & ts & l' & E & C & Li); [|assumption|].
      { eapply Forall_impl; [|exact H0]. intros tn Ht. destruct (table_back T tn Ht) as (ts & C & Tn). exists (tableString T tn), ts, tn. now repeat split. }
      assert (Tns : table_names l ts). { clear - Li. induction Li as [a a' ts [-> A]|a a' ts l l' ts' [-> A] Li IH]; now constructor. }
      destruct (if_exists_back b s ts C) as (tb & Ib & Cb). set (tr := if c then [KReserved kCASCADE] else []).
      assert (Ar : after T (if c then str " CASCADE" else []) tr) by (unfold tr; destruct c; [apply (a_space T (str "CASCADE")); kw "CASCADE"%string|apply a_nil]).
      apply (stmt_atom _ ((str "DROP" ++ str " " ++ str "TABLE" ++ str " " ++ (if b then str "IF EXISTS " else []) ++ s) ++ (if c then str " CASCADE" else [])) (([KReserved kDROP] ++ [KReserved kTABLE] ++ tb ++ ts) ++ tr)).
      + cbn [stmtString]. rewrite E. cbn [writes]. rewrite app_nil_r, <- !app_assoc. reflexivity.
      + apply c_after; [|exact Ar]. then_kw "DROP"%string kDROP. then_kw "TABLE"%string kTABLE. exact Cb.
      + intros. cbn [app]. unfold tr. destruct c; rewrite <- ?app_assoc; [now apply say_drop_cascade|]. apply say_drop_table; [assumption..|now left].
    - destruct (table_back T tn H) as (tt & Ct & Tn).
      assert (C0 : chunk T (idString T i ++ str " " ++ str "ON" ++ str " " ++ tableString T tn) ([KIdent i] ++ [KReserved kON] ++ tt)) by (apply c_space; [now apply c_name|]; then_kw "ON"%string kON; exact Ct).
      destruct (if_exists_back b _ _ C0) as (tb & Ib & Cb). apply (stmt_atom _ (str "DROP" ++ str " " ++ str "INDEX" ++ str " " ++ (if b then str "IF EXISTS " else []) ++ idString T i ++ str " " ++ str "ON" ++ str " " ++ tableString T tn)
        ([KReserved kDROP] ++ [KReserved kINDEX] ++ tb ++ [KIdent i] ++ [KReserved kON] ++ tt)).
      + reflexivity.
      + then_kw "DROP"%string kDROP. then_kw "INDEX"%string kINDEX. exact Cb.
      + intros. now constructor.
    - destruct (if_exists_back b _ _ (c_name T i H)) as (tb & Ib & Cb). apply (stmt_atom _ (str "DROP" ++ str " " ++ str "DATABASE" ++ str " " ++ (if b then str "IF EXISTS " else []) ++ idString T i) ([KReserved kDROP] ++ [KReserved kDATABASE] ++ tb ++ [KIdent i])).
      + cbn [stmtString optionsString]. now rewrite app_nil_r.
      + then_kw "DROP"%string kDROP. then_kw "DATABASE"%string kDATABASE. exact Cb.
      + intros. now constructor.
    - destruct (schema_back T sn H) as (ts & C & Sn). destruct (if_exists_back b _ _ C) as (tb & Ib & Cb).
      apply (stmt_atom _ (str "DROP" ++ str " " ++ str "SCHEMA" ++ str " " ++ (if b then str "IF EXISTS " else []) ++ schemaString T sn) ([KReserved kDROP] ++ [KReserved kSCHEMA] ++ tb ++ ts)).
      + reflexivity.
      + then_kw "DROP"%string kDROP. then_kw "SCHEMA"%string kSCHEMA. exact Cb.
      + intros. apply (say_drop_schema id nm b sn tb ts); assumption.
    - destruct (table_back T tn H) as (tt & Ct & Tn).
      destruct (clause_back HU HL T R w "WHERE" kWHERE (str " WHERE ") (opt_plain w H0) ltac:(is_reserved) eq_refl) as (sw & tw & w' & Ew & Aw & Ow & Hsw).
      exists ((str "DELETE" ++ str " " ++ str "FROM" ++ str " " ++ tableString T tn) ++ sw), (([KReserved kDELETE] ++ [KReserved kFROM] ++ tt) ++ tw), (SDelete tn w').
      split; [change (PText (str "DELETE FROM " ++ tableString T tn ++ match w return bytes with Some e => str " WHERE " ++ fmtS (exprString T e) | None => [] end) = PText ((str "DELETE" ++ str " " ++ str "FROM" ++ str " " ++ tableString T tn) ++ sw)); rewrite Ew, <- !app_assoc; reflexivity|].
      split; [apply c_after; [|exact Aw]; then_kw "DELETE"%string kDELETE; then_kw "FROM"%string kFROM; exact Ct|]. split; [intros; rewrite <- !app_assoc; cbn [app]; now constructor|].
      change (SDelete tn (option_map strip w') = SDelete tn (option_map strip w)). now rewrite Hsw.
    - now apply insert_back.
    - now apply update_back.
  Qed.
End Stmt.

Section Back.
  Context {X : FloatLib} {L : CaseLib} {U : RuneLib} {B : BufLib} {P : PrintLib}.

  Lemma simple_later T T' i : real T -> real T' -> later T T' -> simple T i -> idString T' i = idString T i.
  Proof.
    intros R R' La (N & E & _). set (n := idString T i) in *. assert (E' : ID T' n false = (T', i)) by (rewrite (La n false); [now rewrite E|unfold knows; now rewrite E]).
    destruct (means_total n false) as [m M]. pose proof (ID_entry T n false m R M) as K. pose proof (ID_entry T' n false m R' M) as K'. rewrite E in K. rewrite E' in K'. cbn [fst snd] in K, K'.
    rewrite (idString_entry T' m i) by auto using real_ok. symmetry. apply idString_entry; auto using real_ok.
  Qed.
  Lemma later_trans T1 T2 T3 : later T1 T2 -> later T2 T3 -> later T1 T3.
  Proof. intros H1 H2 n q K. pose proof (H1 n q K) as E. rewrite (H2 n q); [now rewrite E|unfold knows; now rewrite E]. Qed.

  Lemma statement_round_trip : RuneLib_scan U -> CaseLib_ok L -> forall T s, real T -> plain_stmt T s -> returns_stmt T s.
  Proof.
    intros HU HL T s R Hp. destruct (plain_stmt_back HU HL T R s Hp) as (t & ts & s' & E & (ps & -> & (G & Hl & F) & _) & O & Hs).
    exists (ptexts ps). split; [exact E|]. split; [now apply good_scalar|]. intros input p Hi Hu Hf Hr Rp La.
    pose proof (pieces_statement HU ps G Hl) as St. rewrite <- Hr in St.
    destruct (parse_text HU input p _ _ Hi Hu Hf Rp St) as (T' & R' & La' & _ & K).
    destruct (K s') as (p' & Ep & _ & Er & _ & Ef).
    - exists ts. split; [apply (tokens_later _ _ _ _ La'), (tokens_later _ _ _ _ La), F|]. apply O. intros i Hi'. apply (simple_later T T' i R R'); [|exact Hi']. eapply later_trans; eassumption.
    - exists s', p'. now repeat split.
  Qed.
End Back.
