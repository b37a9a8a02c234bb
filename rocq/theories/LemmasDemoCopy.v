(** Concrete COPY statements for the examples. *)

From Verif Require Import ModelParser SpecParser SpecTokens SpecCopy SpecIdent LemmasBase LemmasIdent LemmasDemo LemmasDemoTyped LemmasDemoEngine LemmasDemoScan LemmasDemoParser LemmasListRun LemmasGrammar LemmasGrammarLink LemmasDemoGrammar LemmasSound LemmasSoundLink LemmasCopy.

(** With a comment in front of the semicolon and a note behind it. *)
Definition demo_copied : String.string := "COPY t FROM STDIN -- all
; note
1
2".
Definition demo_copied_tokens : list tokval := [TName (str "COPY") false; TName (str "t") false; TName (str "FROM") false; TName (str "STDIN") false].
Lemma demo_copied_text : copy_text (runes demo_copied) demo_copied_tokens false (runes "1
2") (runes "1
2").
Proof.
  apply (cx_plain _ _ (runes " note
1
2")).
  - apply stx_end. unfold demo_copied_tokens, demo_copied. cbn [app].
    demo_word ""%string "COPY"%string " t FROM STDIN -- all
; note
1
2"%string. demo_word " "%string "t"%string " FROM STDIN -- all
; note
1
2"%string. demo_word " "%string "FROM"%string " STDIN -- all
; note
1
2"%string. demo_word " "%string "STDIN"%string " -- all
; note
1
2"%string.
    refine (tks_more (runes " -- all
"%string) (runes ";"%string) _ (runes " note
1
2"%string) (runes " note
1
2"%string) _ _ _ _ _); [|apply lx_end|constructor].
    apply gap_space; [reflexivity|]. apply (gap_line (runes " all"%string) []); [cbn; intuition discriminate|constructor].
  - left. exists (runes " note"). split; [reflexivity|]. cbn. intuition discriminate.
Qed.
Lemma demo_copied_copies : text_copies (register demo_copied_tokens idt_init) demo_copied_tokens {| tn_database := 0; tn_schema := 0; tn_table := 47 |} [] None.
Proof.
  eexists. split; [unfold demo_copied_tokens; demo_tokens|]. refine (cy_plain _ _ [KIdent 47] [] _ _ _); constructor.
Qed.

(** With a delimiter. *)
Definition demo_copy : String.string := "COPY s.t (a) FROM STDIN DELIMITER ',' ;
1
2".
Definition demo_copy_tokens : list tokval :=
  [TName (str "COPY") false; TName (str "s") false; TRune 46; TName (str "t") false; TRune 40; TName (str "a") false; TRune 41;
   TName (str "FROM") false; TName (str "STDIN") false; TName (str "DELIMITER") false; TString (str ",")].
Ltac demo_string more left :=
  lazymatch goal with |- tokens ?t _ _ => change t with (runes " "%string ++ (39 :: runes ","%string ++ [39]) ++ runes more) end;
  refine (tks_more (runes " "%string) (39 :: runes ","%string ++ [39]) _ (runes more) (runes left) _ _ _ _ _);
    [demo_gap|refine (lx_string [44] [44] (runes more) (runes left) _ _); [apply qb_rune; [discriminate|discriminate|constructor]|exists (runes " "%string); split; [reflexivity|]; split; [repeat constructor|]; split; [cbn; intuition discriminate|cbn; intuition discriminate]]|].
Lemma demo_copy_text : copy_text (runes demo_copy) demo_copy_tokens true (runes "1
2") (runes "1
2").
Proof.
  apply (cx_delimiter _ _ (runes ";
1
2")).
  - unfold demo_copy_tokens, demo_copy.
    demo_word ""%string "COPY"%string " s.t (a) FROM STDIN DELIMITER ',' ;
1
2"%string. demo_word " "%string "s"%string ".t (a) FROM STDIN DELIMITER ',' ;
1
2"%string. demo_punct ""%string "."%string "t (a) FROM STDIN DELIMITER ',' ;
1
2"%string. demo_word ""%string "t"%string " (a) FROM STDIN DELIMITER ',' ;
1
2"%string. demo_punct " "%string "("%string "a) FROM STDIN DELIMITER ',' ;
1
2"%string. demo_word ""%string "a"%string ") FROM STDIN DELIMITER ',' ;
1
2"%string. demo_punct ""%string ")"%string " FROM STDIN DELIMITER ',' ;
1
2"%string. demo_word " "%string "FROM"%string " STDIN DELIMITER ',' ;
1
2"%string. demo_word " "%string "STDIN"%string " DELIMITER ',' ;
1
2"%string. demo_word " "%string "DELIMITER"%string " ',' ;
1
2"%string. demo_string " ;
1
2"%string ";
1
2"%string. constructor.
  - left. exists []. split; [reflexivity|]. intros [].
  - apply stx_end. cbn [app]. demo_end ""%string "1
2"%string. constructor.
Qed.
Lemma demo_copy_copies : text_copies (register demo_copy_tokens idt_init) demo_copy_tokens {| tn_database := 0; tn_schema := 47; tn_table := 48 |} [49] (Some ","%byte).
Proof.
  eexists. split; [unfold demo_copy_tokens; demo_tokens|]. refine (cy_delimiter _ _ _ [KIdent 47; KRune 46; KIdent 48] [KRune 40; KIdent 49; KRune 41] _ _ _).
  - constructor.
  - refine (on_some [49] [KIdent 49] _). constructor.
  - constructor; [intros []|constructor].
Qed.

(** With a comment behind the delimiter it is an error. *)
Definition demo_noted : String.string := "COPY t FROM STDIN DELIMITER ',' -- all
;
1".
Definition demo_noted_tokens : list tokval := demo_copied_tokens ++ [TName (str "DELIMITER") false; TString (str ",")].
Lemma demo_noted_text : statement_text (runes demo_noted) demo_noted_tokens (runes "
1").
Proof.
  apply stx_end. unfold demo_noted_tokens, demo_copied_tokens, demo_noted. cbn [app].
  demo_word ""%string "COPY"%string " t FROM STDIN DELIMITER ',' -- all
;
1"%string. demo_word " "%string "t"%string " FROM STDIN DELIMITER ',' -- all
;
1"%string. demo_word " "%string "FROM"%string " STDIN DELIMITER ',' -- all
;
1"%string. demo_word " "%string "STDIN"%string " DELIMITER ',' -- all
;
1"%string. demo_word " "%string "DELIMITER"%string " ',' -- all
;
1"%string. demo_string " -- all
;
1"%string "-- all
;
1"%string.
  refine (tks_more (runes "-- all
"%string) (runes ";"%string) _ (runes "
1"%string) (runes "
1"%string) _ _ _ _ _); [|apply lx_end|constructor].
  apply (gap_line (runes " all"%string) []); [cbn; intuition discriminate|constructor].
Qed.
Lemma demo_noted_copies : text_copies (register demo_noted_tokens idt_init) demo_noted_tokens {| tn_database := 0; tn_schema := 0; tn_table := 47 |} [] (Some ","%byte).
Proof.
  eexists. split; [unfold demo_noted_tokens, demo_copied_tokens; cbn [app]; demo_tokens|]. refine (cy_delimiter _ _ _ [KIdent 47] [] _ _ _); constructor.
Qed.
Lemma not_all_copied : ~ (forall (X : FloatLib) (L : CaseLib) (U : RuneLib) (B : BufLib) (P : PrintLib), RuneLib_scan U -> forall input p vs left T tn cols d,
  parsing input p -> p_unscanned p = 0%nat -> p_failed p = false -> real (s_ids (p_scanner p)) ->
  statement_text (rest (p_scanner p)) vs left -> real T -> later (s_ids (p_scanner p)) T -> text_copies T vs tn cols d ->
  exists s p', Parse p = PStmt s p').
Proof.
  intros H. destruct (register_spec demo_noted_tokens idt_init demo_real) as [G K].
  destruct (H demo_X demo_L demo_U demo_B demo_P demo_U_scan (runes demo_noted) (demo_parser demo_noted) demo_noted_tokens (runes "
1") _ _ _ _ (demo_parsing _) eq_refl eq_refl demo_real demo_noted_text (proj1 G) (grown_later _ _ demo_real G) demo_noted_copies) as (s & p' & E).
  assert (E1 : match Parse (demo_parser demo_noted) with PStmt _ _ => true | _ => false end = false) by (vm_compute; reflexivity).
  rewrite E in E1. discriminate.
Qed.

(** Without a semicolon the line may be half of a comment. *)
Definition demo_halved : String.string := "COPY t FROM STDIN DELIMITER ',' -
- 1
;".
Definition behindHead (n : nat) : act tok :=
  AScan (fun _ => abind (copyHead n) (fun x => if is_reserved (snd x) [kDELIMITER] then AScan (fun _ => AScan (fun k => ARet k)) else ARet (snd x))).
Lemma lrun_bind (id : bytes -> Z) (name : Z -> bytes) {A D} (g : act A) (h : A -> act D) : forall p a,
  lrun id name (abind g h) p a = match lrun id name g p a with Some (x, p', a') => lrun id name (h x) p' a' | None => None end.
Proof.
  induction g as [x| | | |kk IH|kk IH|kk IH|s kk IH|i kk IH|l kk IH|kk IH]; intros p a; cbn [abind lrun]; try reflexivity.
  - destruct a; [reflexivity|apply IH].
  - destruct p; [reflexivity|apply IH].
  - destruct p; [reflexivity|apply IH].
  - apply IH.
  - destruct (existsb (is_name i) p); [apply IH|reflexivity].
Qed.
Lemma behind_head (X : FloatLib) (L : CaseLib) (U : RuneLib) (B : BufLib) (P : PrintLib) (HU : RuneLib_scan U) input s T left vs tn cols th b k n :
  scanning input s -> real (s_ids s) -> head_tokens tn cols th -> (length th < n)%nat -> over k = true ->
  unread T left (rest s) vs ((KReserved kCOPY :: th ++ match b with Some c => [KReserved kDELIMITER; KString [c]] | None => [] end) ++ [k]) ->
  ends T (t_run (behindHead n) (atTape [] [] s)) -> exists t', t_run (behindHead n) (atTape [] [] s) = Done k t'.
Proof.
  intros S1 R Hth Hn O UN E. set (full := (KReserved kCOPY :: th ++ match b with Some c => [KReserved kDELIMITER; KString [c]] | None => [] end) ++ [k]) in *.
  destruct (lockstep HU input T [] left [] (behindHead n) [] full (atTape [] [] s) k (rev full) []) as (t' & ER & _).
  - exists [], vs, full. constructor; cbn [atTape t_past t_ahead t_scanner map app]; try reflexivity; try assumption; [constructor|now intros].
  - exact E.
  - unfold full, behindHead. cbn [lrun app]. rewrite lrun_bind, <- app_assoc. destruct b as [c|]; cbn [app].
    + rewrite (l_copyHead _ _ n tn cols th) by assumption. cbn [snd is_reserved existsb Z.eqb Pos.eqb orb lrun rev]. rewrite !rev_app_distr. reflexivity.
    + rewrite (l_copyHead _ _ n tn cols th) by assumption. cbn [snd]. replace (is_reserved k [kDELIMITER]) with false by (now destruct k). cbn [lrun rev]. rewrite !rev_app_distr. reflexivity.
  - now exists t'.
Qed.
Lemma some_pair {A D} (a c : A) (b d : D) : Some (a, b) = Some (c, d) -> a = c /\ b = d.
Proof. intros H. split; congruence. Qed.
Lemma not_only_copied : ~ (forall (X : FloatLib) (L : CaseLib) (U : RuneLib) (B : BufLib) (P : PrintLib), RuneLib_scan U -> forall input p tn cols line d p',
  parsing input p -> p_unscanned p = 0%nat -> p_failed p = false -> real (s_ids (p_scanner p)) ->
  Parse p = PStmt (Some (SCopy tn cols line d)) p' ->
  exists vs left b, statement_text (rest (p_scanner p)) vs left /\ text_copies (s_ids (p_scanner p')) vs tn cols b).
Proof.
  intros H.
  assert (E : match Parse (demo_parser demo_halved) with PStmt s p' => Some (s, s_ids (p_scanner p')) | _ => None end =
    Some (Some (SCopy {| tn_database := 0; tn_schema := 0; tn_table := 47 |} [] 2 44), register demo_copied_tokens idt_init)) by (vm_compute; reflexivity).
  pose proof (H demo_X demo_L demo_U demo_B demo_P demo_U_scan (runes demo_halved) (demo_parser demo_halved)) as K. clear H.
  destruct (Parse (demo_parser demo_halved)) as [s p'| | | |]; try discriminate E. apply some_pair in E. destruct E as [-> E].
  destruct (K _ _ _ _ p' (demo_parsing _) eq_refl eq_refl demo_real eq_refl) as (vs & left & b & HT & ts & F & Hc). clear K. rewrite E in F. clear E.
  set (T := register demo_copied_tokens idt_init) in *.
  apply copy_head in Hc. destruct Hc as (th & Hth & ->). destruct (statement_unread T _ _ _ _ HT F) as (k & vs2 & Hk & UN & _).
  set (t := atTape [] [] (p_scanner (demo_parser demo_halved))).
  assert (ER : match t_run (behindHead 100) t with Done x t' => Some (x, s_ids (t_scanner t')) | _ => None end = Some (KRune 45, T)) by (vm_compute; reflexivity).
  destruct (behind_head _ _ _ _ _ demo_U_scan (runes demo_halved) (p_scanner (demo_parser demo_halved)) T left vs2 {| tn_database := 0; tn_schema := 0; tn_table := 47 |} [] th b k 100) as (t' & EB).
  - apply sc_start, demo_runes.
  - exact demo_real.
  - exact Hth.
  - apply unread_length in UN. rewrite app_length in UN. cbn [length] in UN. rewrite app_length in UN.
    assert (EL : length (rest (p_scanner (demo_parser demo_halved))) = 39%nat) by (vm_compute; reflexivity). rewrite EL in UN. lia.
  - clear - Hk. destruct Hk; now subst.
  - exact UN.
  - fold t. destruct (t_run (behindHead 100) t) as [x t'|t'|t'|]; try discriminate ER. apply some_pair in ER. destruct ER as [_ ER]. cbn [ends]. rewrite ER. apply grown_refl. apply register_spec, demo_real.
  - fold t in EB. rewrite EB in ER. apply some_pair in ER. destruct ER as [-> _]. destruct Hk as [Hk|Hk]; discriminate Hk.
Qed.
