(** Concrete texts for the examples about all that is accepted. *)

From Verif Require Import ModelParser SpecParser SpecTokens SpecAccepts LemmasDemo LemmasDemoTyped LemmasDemoEngine LemmasDemoScan LemmasDemoParser LemmasDemoGrammar LemmasDemoSound LemmasGrammarLink LemmasGrammarExpr LemmasSoundGrammar.

Definition demo_not_tokens : list tokval :=
  [TName (str "DELETE") false; TName (str "FROM") false; TName (str "t") false; TName (str "WHERE") false; TName (str "NOT") false; TName (str "a") false;
   TName (str "IS") false; TName (str "NULL") false; TRune 61; TName (str "b") false].
Definition demo_not_names : idtable := s_ids (p_scanner (demo_after 1 (demo_parser demo_not))).

Lemma demo_not_text : statement_text (runes demo_not) demo_not_tokens [].
Proof.
  unfold demo_not_tokens, demo_not. eapply (stx_eof _ _ [] []); [|constructor|constructor].
  demo_word ""%string "DELETE"%string " FROM t WHERE NOT a IS NULL = b"%string. demo_word " "%string "FROM"%string " t WHERE NOT a IS NULL = b"%string.
  demo_word " "%string "t"%string " WHERE NOT a IS NULL = b"%string. demo_word " "%string "WHERE"%string " NOT a IS NULL = b"%string. demo_word " "%string "NOT"%string " a IS NULL = b"%string.
  demo_word " "%string "a"%string " IS NULL = b"%string. demo_word " "%string "IS"%string " NULL = b"%string. demo_word " "%string "NULL"%string " = b"%string. demo_op " "%string "="%string " b"%string.
  demo_word " "%string "b"%string ""%string. constructor.
Qed.
Ltac demo_reads := repeat (constructor; [apply tr_token; first [apply ti_end|apply ti_word; [vm_compute; reflexivity|reflexivity]|apply ti_name; [vm_compute; reflexivity|discriminate]|constructor]|]); constructor.
Lemma demo_not_accepts : text_accepts demo_not_names demo_not_tokens demo_negated.
Proof.
  eexists. split; [unfold demo_not_tokens; demo_reads|]. unfold demo_negated.
  apply (acc_delete _ _ _ _ [KIdent 47] (KReserved kWHERE :: _)); [constructor|]. constructor.
  apply (aw_intro _ _ false (BinaryExpr EqualOp (UnaryExpr NotOp (SExpr 49 [Ref [48]])) (Ref [50]))).
  - apply (as_infix _ _ false (KRune tEqual) EqualOp true _ _ [KReserved kNOT; KIdent 48; KReserved kIS; KReserved kNULL] [KIdent 50]).
    + vm_compute; tauto.
    + apply ao_not. refine (as_is_null _ _ _ [KIdent 48] _). apply ao_ref. constructor.
    + apply (as_operand _ _ true). apply ao_ref. constructor.
  - cbn. repeat split; try discriminate; try reflexivity.
  - reflexivity.
  - intros H. exfalso. vm_compute in H. tauto.
Qed.
Lemma demo_not_accepted : statement_text (rest (p_scanner (demo_parser demo_not))) demo_not_tokens [] /\ exists T, text_accepts T demo_not_tokens demo_negated.
Proof. split; [exact demo_not_text|]. exists demo_not_names. exact demo_not_accepts. Qed.

Lemma demo_condition_accepted : expr_accepts demo_names' demo_where (demo_grouped 47 48 49).
Proof.
  destruct demo_condition_is as (e0 & (ts & F & H) & HT & HW). exists ts. split; [|apply says_whole; econstructor; eassumption].
  clear H. induction F as [|v k vs ts H _ IH]; constructor; [now apply tr_token|exact IH].
Qed.
