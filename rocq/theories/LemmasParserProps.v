(** The parsers met while reading a text: they follow a tape, terminate, panic only
    where they must, and return well-formed tables. *)

From Verif Require Import ModelParser SpecParser SpecExpr SpecCreate LemmasBase LemmasScanProps LemmasScanText LemmasParserWp LemmasParserSafe LemmasParserRun LemmasCreate LemmasParser.

Section Steps.
  Context {X : FloatLib} {L : CaseLib} {U : RuneLib} {B : BufLib} {P : PrintLib} (HU : RuneLib_scan U).

  Section Bad.
    Variable input : list Z.
    Variable bad : bool.
    Hypothesis Hbad : bad = false -> forall s, scanning input s -> ~ bad_escape (rest s).
    Notation st := (st input bad).

    Lemma Parse_sound p t : st p t -> (length (t_ahead t) <= 2)%nat ->
      match Parse p, t_parse (p_failed p) t with
      | PStmt s p', TStmt s' t' => s = option_map (deref_stmt (s_buffer (t_scanner t'))) s' /\ st p' t' /\ (length (t_ahead t') <= 2)%nat /\ (mu t' < mu t)%nat /\ p_failed p' = false
      | PErr p', TErr t' => st p' t' /\ (length (t_ahead t') <= 2)%nat /\ (mu t' < mu t)%nat /\ p_failed p' = p_failed p
      | PErr p', TFailed t' => st p' t' /\ (length (t_ahead t') <= 2)%nat /\ (mu t' < mu t)%nat /\
          p_failed p' = match t_tok t' with KEnd => false | _ => true end
      | PEOF p', TEOF t' => st p' t' /\ (length (t_ahead t') <= 2)%nat /\ p_failed p' = p_failed p
      | PCrash, TCrash t' => may_crash bad (map tok_of (t_past t'))
      | _, _ => False
      end.
    Proof.
      intros HT Hu. pose proof (parse_sound HU input bad Hbad p t HT Hu) as K. unfold Parse.
      destruct (ParseTree p) as [s q|q|q| |]; destruct (t_parse (p_failed p) t) as [s' t'|t'|t'|t'|t'|]; try contradiction; try exact K.
      - destruct K as (-> & HT' & K). destruct HT' as [HO HT'']. pose proof HO as (-> & _). split; [reflexivity|]. split; [now split|exact K].
      - destruct K as (cs & base & -> & [K|K]); [now left|right]. rewrite map_app. destruct K as [(q & ->)|(eq & var & q & -> & K)].
        + left. cbn. eauto.
        + right. cbn. do 3 eexists. split; [reflexivity|exact K].
    Qed.

    Lemma ParseExpr_sound p t : st p t -> (length (t_ahead t) <= 2)%nat ->
      match ParseExpr p, t_run (parseExpr (t_fuel t)) t with
      | Done e p', Done e' t' => e = deref_expr (s_buffer (t_scanner t')) e' /\ st p' t' /\ (length (t_ahead t') <= 2)%nat
      | Failed p', Failed t' => st p' t' /\ (length (t_ahead t') <= 2)%nat
      | Crashed _, Crashed _ => bad = true
      | _, _ => False
      end.
    Proof.
      intros HT Hu. unfold ParseExpr. rewrite (fuel_eq input bad p t HT).
      pose proof (run_sound HU input bad Hbad (fun _ => bad = true) (mu t) (t_past t) (parseExpr (t_fuel t)) p t [] (mu t) (fun p u m a => (u <= 2)%nat) HT eq_refl (Forall_nil _) (le_n _)) as R.
      match type of R with ?A -> _ => assert (W : A); [|specialize (R W); clear W] end.
      { apply wp_parseExpr; try lia; try (now intros); try (eapply fuel_enough; exact Hbad); intros; cbn; lia. }
      destruct (run _ _) as [a q|q|q|]; try contradiction; destruct (t_run _ _) as [a' q'|q'|q'|]; try contradiction.
      - destruct R as (-> & R1 & R2 & cs' & m' & R3 & R4 & R5 & R6). pose proof R1 as [(-> & _) _]. auto.
      - destruct R as (R1 & R2 & R3 & R4). split; [exact R1|lia].
      - destruct R as (cs' & R1 & R2). exact R2.
    Qed.

    Lemma start_st ids : Forall (fun r => 0 <= r <= 1114111) input -> st (newParser ids input) {| t_past := []; t_ahead := []; t_scanner := scannerInit ids input |}.
    Proof.
      intros H. split; [|split; [now constructor|constructor]]. unfold on_tape. cbn [newParser p_scanner t_scanner p_unscanned t_ahead length p_lookBack p_current t_past rev app].
      split; [reflexivity|]. split; [reflexivity|]. split; [lia|]. split; [reflexivity|]. split; [lia|]. intros k Hk. destruct k as [|[|[|k]]]; try lia; reflexivity.
    Qed.
  End Bad.

  Lemma parsing_st input bad p : (bad = false -> forall s, scanning input s -> ~ bad_escape (rest s)) ->
    parsing input p -> exists t, st input bad p t /\ (length (t_ahead t) <= 2)%nat.
  Proof.
    intros Hbad H. induction H as [ids input H|input p s p' H IH E|input p p' H IH E|input p p' H IH E|input p e p' H IH E|input p p' H IH E|input p t H IH|input p H IH];
      try specialize (IH Hbad); try destruct IH as (t0 & HT & Hu).
    - eexists. split; [now apply start_st|]. cbn. lia.
    - pose proof (Parse_sound input bad Hbad p t0 HT Hu) as K. rewrite E in K. destruct (t_parse _ _); try contradiction. exists t. tauto.
    - pose proof (Parse_sound input bad Hbad p t0 HT Hu) as K. rewrite E in K. destruct (t_parse _ _); try contradiction; exists t; tauto.
    - pose proof (Parse_sound input bad Hbad p t0 HT Hu) as K. rewrite E in K. destruct (t_parse _ _); try contradiction. exists t. tauto.
    - pose proof (ParseExpr_sound input bad Hbad p t0 HT Hu) as K. rewrite E in K. destruct (t_run _ _) as [e' t'|t'|t'|]; try contradiction. exists t'. tauto.
    - pose proof (ParseExpr_sound input bad Hbad p t0 HT Hu) as K. rewrite E in K. destruct (t_run _ _) as [e' t'|t'|t'|]; try contradiction. exists t'. tauto.
    - pose proof HT as [(Es & _) [HS _]]. rewrite Es. exists (t_set t0 (set_ids (t_scanner t0) t)). split; [|exact Hu]. apply set_step; [exact HT|]. now constructor.
    - pose proof HT as [(Es & _) [HS _]]. rewrite Es. exists (t_set t0 (snd (runeReaderReadRune (t_scanner t0)))). split; [|exact Hu]. apply set_step; [exact HT|]. now constructor.
  Qed.

  Lemma in_step_st input p t : in_step input p t <-> st input true p t /\ (length (t_ahead t) <= 2)%nat.
  Proof.
    unfold in_step, LemmasParserRun.st. assert (E : Forall (fun c => tok_of c <> KError true) (t_ahead t) <-> Forall (fun c => fine true (tok_of c)) (t_ahead t)).
    { split; apply Forall_impl; intros c; unfold fine; [now split; [|discriminate]|tauto]. }
    rewrite E. tauto.
  Qed.

  Lemma no_bad input : true = false -> forall s, scanning input s -> ~ bad_escape (rest s).
  Proof. discriminate. Qed.

  (** Progress in terms of the tape. *)
  Lemma parse_same input p t : in_step input p t -> same input (p_failed p) (Parse p) (t_parse (p_failed p) t).
  Proof.
    intros [HT Hu]%in_step_st. pose proof (Parse_sound input true (no_bad input) p t HT Hu) as K. unfold same.
    destruct (Parse p); try contradiction; destruct (t_parse _ _); try contradiction; try exact I.
    - split; [apply K|]. split; [apply in_step_st; split; apply K|apply K].
    - split; [apply in_step_st; split; apply K|apply K].
    - split; [apply in_step_st; split; apply K|apply K].
    - split; [apply in_step_st; split; apply K|apply K].
  Qed.

  Lemma parsing_in_step input p : parsing input p -> exists t, in_step input p t.
  Proof.
    intros H. destruct (parsing_st input true p (no_bad input) H) as (t & HT). exists t. now apply in_step_st.
  Qed.

  Lemma start_in_step input ids : Forall (fun r => 0 <= r <= 1114111) input ->
    in_step input (newParser ids input) {| t_past := []; t_ahead := []; t_scanner := scannerInit ids input |}.
  Proof. intros H. apply in_step_st. split; [now apply start_st|cbn; lia]. Qed.

  (** Every call makes progress. *)
  Definition next_of (r : t_parsed) : option tape :=
    match r with TStmt _ t => Some t | TErr t => Some t | TFailed t => Some t | TEOF t => Some t | _ => None end.

  Lemma parse_progress input p t : in_step input p t ->
    match Parse p with
    | PStmt _ p' | PErr p' => exists t', in_step input p' t' /\ (left_over t' < left_over t)%nat
    | PEOF p' => exists t', in_step input p' t'
    | PCrash => True
    | PStuck => False
    end.
  Proof.
    intros [HT Hu]%in_step_st. pose proof (Parse_sound input true (no_bad input) p t HT Hu) as K.
    destruct (Parse p); try contradiction; destruct (t_parse _ _); try contradiction; try exact I.
    1-3: exists t0; split; [apply in_step_st; split; apply K|apply K].
    exists t0. apply in_step_st; split; apply K.
  Qed.

  Lemma to_eof_exists n : forall input p t, (left_over t < n)%nat -> in_step input p t -> exists l, to_eof p l /\ (length l <= S (left_over t))%nat.
  Proof.
    induction n as [|n IH]; intros input p t Hn HI; [lia|]. pose proof (parse_progress input p t HI) as K. destruct (Parse p) as [s p'|p'|p'| |] eqn:E; try contradiction.
    - destruct K as (t' & HI' & Hl). destruct (IH input p' t' ltac:(lia) HI') as (l & Hl1 & Hl2). exists (PStmt s p' :: l). split; [now constructor|cbn; lia].
    - destruct K as (t' & HI' & Hl). destruct (IH input p' t' ltac:(lia) HI') as (l & Hl1 & Hl2). exists (PErr p' :: l). split; [now constructor|cbn; lia].
    - exists [PEOF p']. split; [now constructor|cbn; lia].
    - exists [PCrash]. split; [now constructor|cbn; lia].
  Qed.

  Lemma reads_all input p : parsing input p ->
    Parse p <> PStuck /\ ParseExpr p <> Stuck /\
    exists t l, in_step input p t /\ to_eof p l /\ (length l <= S (left_over t))%nat.
  Proof.
    intros H. destruct (parsing_in_step _ _ H) as (t & HI). split; [|split].
    - pose proof (parse_progress input p t HI) as K. now destruct (Parse p).
    - apply in_step_st in HI. destruct HI as [HT Hu]. pose proof (ParseExpr_sound input true (no_bad input) p t HT Hu) as K. now destruct (ParseExpr p).
    - destruct (to_eof_exists (S (left_over t)) input p t ltac:(lia) HI) as (l & Hl). now exists t, l.
  Qed.

  Lemma reads_text input ids : Forall (fun r => 0 <= r <= 1114111) input -> exists l, to_eof (newParser ids input) l /\ (length l <= S (length input))%nat.
  Proof.
    intros H. destruct (to_eof_exists _ input _ _ (Nat.lt_succ_diag_r _) (start_in_step input ids H)) as (l & H1 & H2). exists l. split; [exact H1|]. exact H2.
  Qed.

  (** Panics. *)
  Lemma panics input p : (forall s, scanning input s -> ~ bad_escape (rest s)) -> parsing input p ->
    exists t, in_step input p t /\ (Parse p = PCrash -> exists t', t_parse (p_failed p) t = TCrash t' /\ set_null (map tok_of (t_past t'))) /\
      (forall p', ParseExpr p <> Crashed p').
  Proof.
    intros Hb H. destruct (parsing_st input false p (fun _ => Hb) H) as (t & HT & Hu). exists t. split; [|split].
    - apply in_step_st. split; [|exact Hu]. destruct HT as (H1 & H2 & H3). split; [exact H1|]. split; [exact H2|]. revert H3. apply Forall_impl. intros c [F _]. split; [exact F|discriminate].
    - intros E. pose proof (Parse_sound input false (fun _ => Hb) p t HT Hu) as K. rewrite E in K. destruct (t_parse _ _) as [| | | |t'|]; try contradiction. exists t'. split; [reflexivity|]. destruct K as [K|K]; [discriminate|exact K].
    - intros p' E. pose proof (ParseExpr_sound input false (fun _ => Hb) p t HT Hu) as K. rewrite E in K. destruct (t_run _ _); try contradiction. discriminate.
  Qed.

  (** Nothing is read that is not in the text. *)
  Lemma rest_in input s : scanning input s -> incl (rest s) input.
  Proof.
    induction 1 as [ids input H|input s c s' c' H IH E|input s t H IH|input s H IH|input s H IH].
    - intros r. cbn. auto.
    - destruct (in_order HU _ _ _ _ _ H E) as (w & Hw & _). intros r Hr. apply IH. rewrite Hw. apply in_or_app. now right.
    - exact IH.
    - intros r Hr. apply IH. unfold rest, RuneReader in *. pose proof (dropLine_suffix (s_in s)) as [w Hw]. destruct (dropLine (s_in s)) as [l nl]. cbn in *. apply in_app_or in Hr. apply in_or_app.
      destruct Hr as [Hr|Hr]; [now left|right]. rewrite Hw. apply in_or_app. now right.
    - intros r Hr. apply IH. unfold rest, runeReaderReadRune in *. destruct (s_in s) as [|x l] eqn:E; cbn in *; [now rewrite E in Hr|]. apply in_app_or in Hr. apply in_or_app. cbn. tauto.
  Qed.

  Lemma no_backslash input s : ~ In 92 input -> scanning input s -> ~ bad_escape (rest s).
  Proof.
    intros H Hs (a & w & b & E & _). apply H. apply (rest_in _ _ Hs). rewrite E. apply in_or_app. right. now left.
  Qed.

  Lemma panics_only input p : ~ In 92 input -> parsing input p ->
    exists t, in_step input p t /\ (Parse p = PCrash -> exists t', t_parse (p_failed p) t = TCrash t' /\ set_null (map tok_of (t_past t'))) /\
      (forall p', ParseExpr p <> Crashed p').
  Proof. intros H. apply panics. intros s. now apply no_backslash. Qed.

  (** Tables. *)
  Lemma run_post {A} (g : act A) (Q : A -> Prop) : post g Q -> forall p a p', run g p = Done a p' -> Q a.
  Proof.
    induction g as [a| | | |k IH|k IH|k IH|s k IH|i k IH|l k IH|k IH]; cbn [post run]; intros HP p b p' E; try discriminate.
    - now injection E as <- _.
    - destruct (scanRune p) as [[q []]|]; try discriminate. exact (IH _ (HP _) _ _ _ E).
    - destruct (unscan p); try discriminate. exact (IH HP _ _ _ E).
    - exact (IH _ (HP _) _ _ _ E).
    - destruct (ID _ _ _) as [ids id]. exact (IH _ (HP _) _ _ _ E).
    - exact (IH _ (HP _) _ _ _ E).
    - exact (IH _ (HP _) _ _ _ E).
    - exact (IH _ (HP _) _ _ _ E).
  Qed.

  Lemma table_ok_deref b cols types defaults csts : table_ok cols types defaults csts ->
    table_ok cols types (map (option_map (deref_expr b)) defaults)
      (map (fun c => {| con_type := con_type c; con_name := con_name c; con_colnum := con_colnum c; con_key := con_key c; con_check := option_map (deref_expr b) (con_check c) |}) csts).
  Proof.
    intros (H1 & H2 & H3 & H4 & H5). split; [exact H1|]. split; [exact H2|]. split; [now rewrite map_length|]. split.
    - clear - H4. induction H4 as [|c l Hc Hl IH]; cbn [map]; constructor; [|exact IH]. rewrite Forall_map. exact Hc.
    - rewrite Forall_map. revert H5. apply Forall_impl. intros c Hc. unfold constraint_ok in *. cbn [con_type con_name con_colnum con_key con_check]. destruct (con_type c).
      + destruct Hc as (-> & K & Hc1 & e & Hc). split; [reflexivity|]. split; [exact K|]. split; [exact Hc1|]. exists (deref_expr b e). rewrite nth_error_map, Hc. reflexivity.
      + destruct Hc as (-> & Hc). now split.
      + destruct Hc as (K & -> & Hc). now split.
      + destruct Hc as (K & -> & Hc). now split.
      + destruct Hc as ((e & ->) & Hc). split; [|exact Hc]. eexists. reflexivity.
  Qed.

  Lemma skip_none n : forall p r p', skipStmt n p = (Some r, p') -> forall s q, r <> PStmt s q.
  Proof.
    induction n as [|n IH]; cbn [skipStmt]; intros p r p' E s q; [injection E as <- _; discriminate|]. destruct (scanRune p) as [[p1 []]|]; try (injection E as <- _; discriminate).
    destruct (p_tok p1); try (injection E as <- _; discriminate); try discriminate; now apply (IH _ _ _ E).
  Qed.

  Lemma parsed_table p tn cols types defaults ine csts fks p' :
    Parse p = PStmt (Some (SCreateTable tn cols types defaults ine csts fks)) p' -> table_ok cols types defaults csts.
  Proof.
    unfold Parse, ParseTree. destruct (scanRune p) as [[p1 []]|]; try discriminate. intros E.
    assert (G : exists p2 n s p3, run (parseWhole n) p2 = Done (Some s) p3 /\ deref_stmt (s_buffer (p_scanner p')) s = SCreateTable tn cols types defaults ine csts fks).
    { destruct (p_tok p1); try discriminate; (destruct (unscan p1) as [p2|]; [|discriminate]);
        (destruct (if p_failed p2 then skipStmt (parse_fuel p2) p2 else (None, p2)) as [[res|] p3] eqn:Es; [destruct (p_failed p2); [|discriminate]; pose proof (skip_none _ _ _ _ Es) as N; destruct res as [rs rp| | | |]; try discriminate; now elim (N rs rp)|]);
        cbv zeta in E; destruct (run _ _) as [st0 q|q|q|] eqn:Er; try discriminate; injection E as E1 <-; (destruct st0 as [st0|]; [|discriminate]); injection E1 as E1; do 4 eexists; (split; [exact Er|exact E1]). }
    destruct G as (p2 & n & s & p3 & G & D). apply (run_post _ _ (post_parseWhole n)) in G. destruct s; cbn in D; try discriminate. injection D as <- <- <- <- <- <- <-. apply table_ok_deref. apply (G _ _ _ _ _ _ _ eq_refl).
  Qed.
End Steps.
