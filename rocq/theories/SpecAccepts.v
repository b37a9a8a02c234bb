(** What the parser accepts: the grammar of statements (SpecGrammar) with what is
    read in addition to it, marked with (+).

    A literal of bytes stands for some bytes, not for those written: they are in
    the scanner's buffer, that may have been overwritten.  COPY is left out. *)

From Verif Require Export SpecGrammar SpecTokens.

Local Notation Dot := (KRune 46).
Local Notation Comma := (KRune 44).
Local Notation LP := (KRune 40).
Local Notation RP := (KRune 41).
Local Notation Star := (KRune 42).
Local Notation Minus := (KRune 45).
Local Notation AtSign := (KRune 64).
Local Notation Eq := (KRune 61).
Local Notation R := KReserved.
Local Notation I := KIdent.

Section Accepts.
  (** The number of a name, and the name of a number. *)
  Variable id : bytes -> Z.
  Variable name : Z -> bytes.

  (** What is behind SHOW; (+) any word that is reserved. *)
  Inductive a_show : stmt -> list tok -> Prop :=
  | ash_show s ts : show id name s ts -> a_show s ts
  | ash_word k : k < 0 -> a_show (SShow k) [R k].

  (** [a_operand false]: NOT or minus in front of what goes on as far as it can: no
      operator is read behind it.  [a_sub true]: what ends with IS NULL or with a
      subquery of IN, ANY or the like, behind which no operator is looked for.
      (+) NOT or minus in front of such a thing is an operand: the operator behind
      it is read.

      The words of an expression that is grouped are those read; operators bind as
      the table says. *)
  Inductive a_operand : bool -> expr -> list tok -> Prop :=
  | ao_true : a_operand true (Literal (VBool true)) [R kTRUE]
  | ao_false : a_operand true (Literal (VBool false)) [R kFALSE]
  | ao_null : a_operand true (Literal VNull) [R kNULL]
  | ao_string s : a_operand true (Literal (VString s)) [KString s]
  | ao_integer i : a_operand true (Literal (VInt i)) [KInteger i]
  | ao_float p : a_operand true (Literal (VFloat p)) [KFloat p]
  | ao_bytes b l : a_operand true (Literal (VBytes b)) [KBytes l] (* (+) *)
  | ao_ref i l ts : dots l ts -> a_operand true (Ref (i :: l)) (I i :: ts)
  | ao_call0 f : a_operand true (SExpr f []) [I f; LP; RP]
  | ao_count : a_operand true (SExpr iCOUNT_ALL []) [I iCOUNT; LP; Star; RP]
  | ao_call f l ts : a_args l ts -> a_operand true (SExpr f l) (I f :: LP :: ts ++ [RP])
  | ao_paren c e ts : a_sub c e ts -> a_operand true (UnaryExpr NoOp e) (LP :: ts ++ [RP])
  | ao_query s ts : a_query s ts -> a_operand true (Subquery Scalar AddOp None s) (LP :: ts ++ [RP])
  | ao_exists s ts : a_query s ts -> a_operand true (Subquery ModelSql.Exists AddOp None s) (R kEXISTS :: LP :: ts ++ [RP])
  | ao_not c e ts : a_sub c e ts -> a_operand c (UnaryExpr NotOp e) (R kNOT :: ts)
  | ao_minus c e ts : a_sub c e ts -> a_operand c (UnaryExpr NegateOp e) (Minus :: ts)
  with a_sub : bool -> expr -> list tok -> Prop :=
  | as_operand o e ts : a_operand o e ts -> a_sub false e ts
  | as_infix c t op b l r ts ts' : In (t, op, b) infix_tokens -> a_operand true l ts -> a_sub c r ts' ->
      a_sub c (BinaryExpr op l r) (ts ++ t :: ts')
  | as_is_null e ts : a_operand true e ts -> a_sub true (SExpr (id (str "is_null")) [e]) (ts ++ [R kIS; R kNULL])
  | as_is_not_null e ts : a_operand true e ts ->
      a_sub true (UnaryExpr NotOp (SExpr (id (str "is_null")) [e])) (ts ++ [R kIS; R kNOT; R kNULL])
  | as_in e s ts ts' : a_operand true e ts -> a_query s ts' ->
      a_sub true (Subquery Any EqualOp (Some e) s) (ts ++ R kIN :: LP :: ts' ++ [RP])
  | as_not_in e s ts ts' : a_operand true e ts -> a_query s ts' ->
      a_sub true (Subquery All NotEqualOp (Some e) s) (ts ++ R kNOT :: R kIN :: LP :: ts' ++ [RP])
  | as_any t op k e s ts ts' : In (t, op, true) infix_tokens -> In k [kANY; kSOME] -> a_operand true e ts -> a_query s ts' ->
      a_sub true (Subquery Any op (Some e) s) (ts ++ t :: R k :: LP :: ts' ++ [RP])
  | as_all t op e s ts ts' : In (t, op, true) infix_tokens -> a_operand true e ts -> a_query s ts' ->
      a_sub true (Subquery All op (Some e) s) (ts ++ t :: R kALL :: LP :: ts' ++ [RP])
  with a_args : list expr -> list tok -> Prop :=
  | aar_one c e ts : a_sub c e ts -> a_args [e] ts
  | aar_more c e l ts ts' : a_sub c e ts -> a_args l ts' -> a_args (e :: l) (ts ++ Comma :: ts')
  with a_whole : expr -> list tok -> Prop :=
  | aw_intro c e0 e ts : a_sub c e0 ts -> grouped e -> words e = words e0 -> (read_right e0 -> tight e) -> a_whole e ts
  with a_wholes : list expr -> list tok -> Prop :=
  | aws_one e ts : a_whole e ts -> a_wholes [e] ts
  | aws_more e l ts ts' : a_whole e ts -> a_wholes l ts' -> a_wholes (e :: l) (ts ++ Comma :: ts')
  (** Rows, all of the same length. *)
  with a_rows : list (list expr) -> list tok -> Prop :=
  | arw_one l ts : a_wholes l ts -> a_rows [l] (LP :: ts ++ [RP])
  | arw_more l ls ts ts' : a_wholes l ts -> a_rows ls ts' -> Forall (fun l' => length l' = length l) ls ->
      a_rows (l :: ls) (LP :: ts ++ RP :: Comma :: ts')
  with a_result : selectresult expr -> list tok -> Prop :=
  | are_table t : a_result (TableResult t) [I t; Dot; Star]
  | are_expr e a ts ts' : a_whole e ts -> opt_alias a ts' -> a_result (ExprResult e a) (ts ++ ts')
  with a_results : list (selectresult expr) -> list tok -> Prop :=
  | ars_one r ts : a_result r ts -> a_results [r] ts
  | ars_more r l ts ts' : a_result r ts -> a_results l ts' -> a_results (r :: l) (ts ++ Comma :: ts')
  with a_opt_results : option (list (selectresult expr)) -> list tok -> Prop :=
  | aor_star : a_opt_results None [Star]
  | aor_list l ts : a_results l ts -> a_opt_results (Some l) ts
  with a_opt_whole : Z -> option expr -> list tok -> Prop :=
  | aow_none k : a_opt_whole k None []
  | aow_some k e ts : a_whole e ts -> a_opt_whole k (Some e) (R k :: ts)
  with a_opt_group : list expr -> list tok -> Prop :=
  | aog_none : a_opt_group [] []
  | aog_some l ts : a_wholes l ts -> a_opt_group l (R kGROUP :: R kBY :: ts)
  with a_opt_from : option fromitem -> list tok -> Prop :=
  | aof_none : a_opt_from None []
  | aof_some f ts : a_from_list f ts -> a_opt_from (Some f) (R kFROM :: ts)
  (** What is behind SELECT. *)
  with a_select : stmt -> list tok -> Prop :=
  | asel_intro r f w g h o tr tf tw tg th to : a_opt_results r tr -> a_opt_from f tf -> a_opt_whole kWHERE w tw ->
      a_opt_group g tg -> a_opt_whole kHAVING h th -> opt_order o to ->
      a_select (SSelect r f w g h o) (tr ++ tf ++ tw ++ tg ++ th ++ to)
  with a_query : stmt -> list tok -> Prop :=
  | aq_select s ts : a_select s ts -> a_query s (R kSELECT :: ts)
  | aq_values l ts : a_rows l ts -> a_query (SValues l) (R kVALUES :: ts)
  | aq_show s ts : a_show s ts -> a_query s (R kSHOW :: ts)
  | aq_table tn ts : table_name tn ts -> a_query (SSelect None (Some (FromTableAlias tn 0)) None [] None []) (R kTABLE :: ts)
  with a_from_operand : fromitem -> list tok -> Prop :=
  | afo_table tn a ts ts' : table_name tn ts -> opt_alias a ts' -> a_from_operand (FromTableAlias tn a) (ts ++ ts')
  | afo_index tn i a ts ts' : table_name tn ts -> opt_alias a ts' -> a_from_operand (FromIndexAlias tn i a) (ts ++ AtSign :: I i :: ts')
  | afo_query s a l ts ts' ts'' : a_query s ts -> some_alias a ts' -> opt_names l ts'' ->
      a_from_operand (FromStmt s a l) (LP :: ts ++ RP :: ts' ++ ts'')
  | afo_paren f ts : a_from_list f ts -> a_from_operand f (LP :: ts ++ [RP])
  (** [true]: the last join is a cross join, and ON or USING behind it would belong
      to it. *)
  with a_from_item : bool -> fromitem -> list tok -> Prop :=
  | afi_operand f ts : a_from_operand f ts -> a_from_item false f ts
  | afi_cross b l r ts ts' : a_from_operand l ts -> a_from_item b r ts' ->
      a_from_item true (FromJoin l r CrossJoin None []) (ts ++ R kCROSS :: R kJOIN :: ts')
  | afi_on jt l r e ts tj ts' te : a_from_operand l ts -> join_words jt tj -> a_from_item false r ts' -> a_whole e te ->
      a_from_item false (FromJoin l r jt (Some e) []) (ts ++ tj ++ ts' ++ R kON :: te)
  | afi_using jt l r c ts tj ts' tc : a_from_operand l ts -> join_words jt tj -> a_from_item false r ts' -> names c tc -> NoDup c ->
      a_from_item false (FromJoin l r jt None c) (ts ++ tj ++ ts' ++ R kUSING :: LP :: tc ++ [RP])
  (** Commas are cross joins, to the left. *)
  with a_from_list : fromitem -> list tok -> Prop :=
  | afl_intro b f f' ts ts' : a_from_item b f ts -> a_from_more f f' ts' -> a_from_list f' (ts ++ ts')
  with a_from_more : fromitem -> fromitem -> list tok -> Prop :=
  | afm_nil f : a_from_more f f []
  | afm_more b f r f' ts ts' : a_from_item b r ts -> a_from_more (FromJoin f r CrossJoin None []) f' ts' ->
      a_from_more f f' (Comma :: ts ++ ts').

  (** The name of a constraint; zero if there is none.  (+) The name [""] is
      number zero, and as if there were none. *)
  Inductive a_constraint : Z -> list tok -> Prop :=
  | act_none : a_constraint 0 []
  | act_some i : a_constraint i [R kCONSTRAINT; I i].

  (** The constraints of the column [c], whose number is [col]: the type, the
      default, and the constraints and foreign keys of the table, before and
      after.  (+) The name [""] of a constraint in front of nothing. *)
  Inductive a_column_details (c col : Z) :
      coltype * option expr * list (constraint expr) * list foreignkey -> list tok ->
      coltype * option expr * list (constraint expr) * list foreignkey -> Prop :=
  | acd_none st tc : a_constraint 0 tc -> a_column_details c col st tc st
  | acd_default tc ct cs fs e ts ts' st : a_constraint 0 tc -> a_whole e ts ->
      a_column_details c col (ct, Some e, cs, fs) ts' st ->
      a_column_details c col (ct, None, cs, fs) (tc ++ R kDEFAULT :: ts ++ ts') st
  | acd_named_default cn ct cs fs e ts ts' st : cn <> 0 -> column_may_follow cs DefaultConstraint cn col -> a_whole e ts ->
      a_column_details c col (ct, Some e, cs ++ [column_constraint DefaultConstraint cn col], fs) ts' st ->
      a_column_details c col (ct, None, cs, fs) (R kCONSTRAINT :: I cn :: R kDEFAULT :: ts ++ ts') st
  | acd_not_null tc t s f d cs fs ts' st : a_constraint 0 tc ->
      a_column_details c col ({| ct_type := t; ct_size := s; ct_fixed := f; ct_notnull := true |}, d, cs, fs) ts' st ->
      a_column_details c col ({| ct_type := t; ct_size := s; ct_fixed := f; ct_notnull := false |}, d, cs, fs)
        (tc ++ R kNOT :: R kNULL :: ts') st
  | acd_named_not_null cn t s f d cs fs ts' st : cn <> 0 -> column_may_follow cs NotNullConstraint cn col ->
      a_column_details c col ({| ct_type := t; ct_size := s; ct_fixed := f; ct_notnull := true |}, d,
                            cs ++ [column_constraint NotNullConstraint cn col], fs) ts' st ->
      a_column_details c col ({| ct_type := t; ct_size := s; ct_fixed := f; ct_notnull := false |}, d, cs, fs)
        (R kCONSTRAINT :: I cn :: R kNOT :: R kNULL :: ts') st
  | acd_primary cn tc ct d cs fs ts' st : a_constraint cn tc ->
      let n := key_name id name cn [c] (str "primary") in
      let key := {| ik_unique := true; ik_columns := [c]; ik_reverse := [false] |} in
      key_may_follow cs PrimaryConstraint n key ->
      a_column_details c col (ct, d, cs ++ [key_constraint PrimaryConstraint n key], fs) ts' st ->
      a_column_details c col (ct, d, cs, fs) (tc ++ R kPRIMARY :: R kKEY :: ts') st
  | acd_unique cn tc ct d cs fs ts' st : a_constraint cn tc ->
      let n := key_name id name cn [c] (str "unique") in
      let key := {| ik_unique := true; ik_columns := [c]; ik_reverse := [false] |} in
      key_may_follow cs UniqueConstraint n key ->
      a_column_details c col (ct, d, cs ++ [key_constraint UniqueConstraint n key], fs) ts' st ->
      a_column_details c col (ct, d, cs, fs) (tc ++ R kUNIQUE :: ts') st
  | acd_check cn tc ct d cs fs e ts ts' st : a_constraint cn tc -> a_whole e ts ->
      a_column_details c col (ct, d, cs ++ [check_constraint cn col e], fs) ts' st ->
      a_column_details c col (ct, d, cs, fs) (tc ++ R kCHECK :: LP :: ts ++ RP :: ts') st
  | acd_references cn tc ct d cs fs tn rc od ou ts ts'' to ts' st : a_constraint cn tc ->
      table_name tn ts -> opt_names rc ts'' -> (length rc <= 1)%nat -> on_actions od ou to ->
      a_column_details c col (ct, d, cs,
        fs ++ [{| fk_name := cn; fk_cols := [c]; fk_ref := tn; fk_refcols := rc; fk_ondelete := od; fk_onupdate := ou |}]) ts' st ->
      a_column_details c col (ct, d, cs, fs) (tc ++ R kREFERENCES :: ts ++ ts'' ++ to ++ ts') st.

  (** What is in the parentheses of CREATE TABLE: the table before and after.
      (+) The name [""] of a constraint in front of a column. *)
  Inductive a_table_detail : ctable -> list tok -> ctable -> Prop :=
  | atd_column s tc c ct ts ct' d cs fs ts' : a_constraint 0 tc -> ~ In c (cb_cols s) -> column_type ct ts ->
      a_column_details c (zlen (cb_cols s)) (ct, None, cb_csts s, cb_fks s) ts' (ct', d, cs, fs) ->
      a_table_detail s (tc ++ I c :: ts ++ ts')
        {| cb_cols := cb_cols s ++ [c]; cb_types := cb_types s ++ [ct']; cb_defaults := cb_defaults s ++ [d];
           cb_csts := cs; cb_fks := fs |}
  | atd_key s cn tc pr key ts : a_constraint cn tc -> index_key true key ts ->
      let n := key_name id name cn (ik_columns key) (if pr : bool then str "primary" else str "unique") in
      let ct := if pr then PrimaryConstraint else UniqueConstraint in
      key_may_follow (cb_csts s) ct n key ->
      a_table_detail s (tc ++ (if pr then [R kPRIMARY; R kKEY] else [R kUNIQUE]) ++ ts)
        {| cb_cols := cb_cols s; cb_types := cb_types s; cb_defaults := cb_defaults s;
           cb_csts := cb_csts s ++ [key_constraint ct n key]; cb_fks := cb_fks s |}
  | atd_check s cn tc e ts : a_constraint cn tc -> a_whole e ts ->
      a_table_detail s (tc ++ R kCHECK :: LP :: ts ++ [RP])
        {| cb_cols := cb_cols s; cb_types := cb_types s; cb_defaults := cb_defaults s;
           cb_csts := cb_csts s ++ [check_constraint cn (-1) e]; cb_fks := cb_fks s |}
  | atd_foreign s cn tc fk ts : a_constraint cn tc -> foreign_key cn fk ts ->
      a_table_detail s (tc ++ R kFOREIGN :: R kKEY :: ts)
        {| cb_cols := cb_cols s; cb_types := cb_types s; cb_defaults := cb_defaults s;
           cb_csts := cb_csts s; cb_fks := cb_fks s ++ [fk] |}.
  Inductive a_table_details : ctable -> list tok -> ctable -> Prop :=
  | atds_one s ts s' : a_table_detail s ts s' -> a_table_details s ts s'
  | atds_more s ts s1 ts' s' : a_table_detail s ts s1 -> a_table_details s1 ts' s' ->
      a_table_details s (ts ++ Comma :: ts') s'.

  Inductive a_alter_action : alteraction -> list tok -> Prop :=
  | aaa_foreign cn tc fk ts : a_constraint cn tc -> foreign_key cn fk ts ->
      a_alter_action (AddForeignKey fk) (R kADD :: tc ++ R kFOREIGN :: R kKEY :: ts)
  | aaa_drop i : a_alter_action (DropConstraint i false) [R kDROP; R kCONSTRAINT; I i]
  | aaa_drop_if i : a_alter_action (DropConstraint i true) [R kDROP; R kCONSTRAINT; R kIF; R kEXISTS; I i]
  | aaa_default c tc : In tc [[]; [R kCOLUMN]] ->
      a_alter_action (DropColumnConstraint c DefaultConstraint) (R kALTER :: tc ++ [I c; R kDROP; R kDEFAULT])
  | aaa_not_null c tc : In tc [[]; [R kCOLUMN]] ->
      a_alter_action (DropColumnConstraint c NotNullConstraint) (R kALTER :: tc ++ [I c; R kDROP; R kNOT; R kNULL]).
  Inductive a_alter_actions : list alteraction -> list tok -> Prop :=
  | aaas_one a ts : a_alter_action a ts -> a_alter_actions [a] ts
  | aaas_more a l ts ts' : a_alter_action a ts -> a_alter_actions l ts' -> a_alter_actions (a :: l) (ts ++ Comma :: ts').

  (** DEFAULT or an expression. *)
  Inductive a_or_default : option expr -> list tok -> Prop :=
  | aod_default : a_or_default None [R kDEFAULT]
  | aod_expr e ts : a_whole e ts -> a_or_default (Some e) ts.
  Inductive a_insert_row : list (option expr) -> list tok -> Prop :=
  | air_one o ts : a_or_default o ts -> a_insert_row [o] ts
  | air_more o l ts ts' : a_or_default o ts -> a_insert_row l ts' -> a_insert_row (o :: l) (ts ++ Comma :: ts').
  Inductive a_insert_rows : list (list (option expr)) -> list tok -> Prop :=
  | airs_one l ts : a_insert_row l ts -> a_insert_rows [l] (LP :: ts ++ [RP])
  | airs_more l ls ts ts' : a_insert_row l ts -> a_insert_rows ls ts' -> a_insert_rows (l :: ls) (LP :: ts ++ RP :: Comma :: ts').
  Inductive a_updates : list (Z * option expr) -> list tok -> Prop :=
  | aup_one i o ts : a_or_default o ts -> a_updates [(i, o)] (I i :: Eq :: ts)
  | aup_more i o l ts ts' : a_or_default o ts -> a_updates l ts' -> a_updates ((i, o) :: l) (I i :: Eq :: ts ++ Comma :: ts').

  (** (+) An option may be given more than once; the last value counts. *)
  Fixpoint last_value (l : list (Z * bytes)) (k : Z) : option bytes :=
    match l with
    | [] => None
    | (k', v) :: l' =>
        match last_value l' k with
        | Some v' => Some v'
        | None => if k' =? k then Some v else None
        end
    end.
  Definition options_of (given l : list (Z * bytes)) : Prop :=
    NoDup (map fst l) /\ forall k v, In (k, v) l <-> last_value given k = Some v.

  Context {X : FloatLib} {P : PrintLib}.

  (** (+) Bytes. *)
  Inductive a_option_value : bytes -> tok -> Prop :=
  | aov_text v t : option_value name v t -> a_option_value v t
  | aov_bytes b l : a_option_value b (KBytes l).
  Inductive a_db_options : list (Z * bytes) -> list tok -> Prop :=
  | ado_one i v t eq : a_option_value v t -> In eq [[]; [Eq]] -> a_db_options [(i, v)] (I i :: eq ++ [t])
  | ado_more i v t eq l ts : a_option_value v t -> In eq [[]; [Eq]] -> a_db_options l ts ->
      a_db_options ((i, v) :: l) (I i :: eq ++ t :: ts).

  (** What a variable is set to; (+) the text of bytes. *)
  Inductive a_setting : bytes -> list tok -> Prop :=
  | ast_string s ts : a_whole (Literal (VString s)) ts -> a_setting s ts
  | ast_true ts : a_whole (Literal (VBool true)) ts -> a_setting (str "true") ts
  | ast_false ts : a_whole (Literal (VBool false)) ts -> a_setting (str "false") ts
  | ast_integer i ts : a_whole (Literal (VInt i)) ts -> a_setting (format_int i) ts
  | ast_float p ts : a_whole (Literal (VFloat p)) ts -> a_setting (x_print_float p) ts
  | ast_bytes b b' ts : a_whole (Literal (VBytes b)) ts -> a_setting (bytesString b') ts.

  (** Statements, without what ends them. *)
  Inductive accepts : stmt -> list tok -> Prop :=
  | acc_begin : accepts SBegin [R kBEGIN]
  | acc_start : accepts SBegin [R kSTART; R kTRANSACTION]
  | acc_commit : accepts SCommit [R kCOMMIT]
  | acc_rollback : accepts SRollback [R kROLLBACK]
  | acc_query s ts : a_select s ts -> accepts s (R kSELECT :: ts)
  | acc_values l ts : a_rows l ts -> accepts (SValues l) (R kVALUES :: ts)
  | acc_show s ts : a_show s ts -> accepts s (R kSHOW :: ts)
  | acc_explain s ts : a_select s ts -> accepts (SExplain s false) (R kEXPLAIN :: R kSELECT :: ts)
  | acc_explain_verbose s ts : a_select s ts -> accepts (SExplain s true) (R kEXPLAIN :: R kVERBOSE :: R kSELECT :: ts)
  | acc_set var v ts k : (var = kDATABASE /\ k = R kDATABASE) \/ (var = kSCHEMA /\ k = R kSCHEMA) \/ k = I var ->
      a_setting v ts -> accepts (SSet var v) (R kSET :: k :: Eq :: ts)
  | acc_set_to var v ts k : (var = kDATABASE /\ k = R kDATABASE) \/ (var = kSCHEMA /\ k = R kSCHEMA) \/ k = I var ->
      a_setting v ts -> accepts (SSet var v) (R kSET :: k :: R kTO :: ts)
  | acc_use v ts : a_setting v ts -> accepts (SSet kDATABASE v) (R kUSE :: ts)
  | acc_insert tn l ls ts ts' ts'' : table_name tn ts -> opt_names l ts' -> NoDup l -> a_insert_rows ls ts'' ->
      accepts (SInsertValues tn l ls) (R kINSERT :: R kINTO :: ts ++ ts' ++ R kVALUES :: ts'')
  | acc_update tn l w ts ts' tw : table_name tn ts -> a_updates l ts' -> a_opt_whole kWHERE w tw ->
      accepts (SUpdate tn l w) (R kUPDATE :: ts ++ R kSET :: ts' ++ tw)
  | acc_delete tn w ts tw : table_name tn ts -> a_opt_whole kWHERE w tw ->
      accepts (SDelete tn w) (R kDELETE :: R kFROM :: ts ++ tw)
  | acc_create_table b tn s tb ts ts' : if_not_exists b tb -> table_name tn ts -> a_table_details noTable ts' s ->
      accepts (SCreateTable tn (cb_cols s) (cb_types s) (cb_defaults s) b (cb_csts s) (cb_fks s))
        (R kCREATE :: R kTABLE :: tb ++ ts ++ LP :: ts' ++ [RP])
  | acc_create_index u b i tn key tb ts tu ts' : if_not_exists b tb -> table_name tn ts -> In tu [[]; [R kUSING; I iBTREE]] ->
      index_key u key ts' ->
      accepts (SCreateIndex i tn key b)
        (R kCREATE :: (if u then [R kUNIQUE] else []) ++ R kINDEX :: tb ++ I i :: R kON :: ts ++ tu ++ ts')
  | acc_create_database i : accepts (SCreateDatabase i []) [R kCREATE; R kDATABASE; I i]
  | acc_create_database_with i given l ts : a_db_options given ts -> options_of given l ->
      accepts (SCreateDatabase i l) (R kCREATE :: R kDATABASE :: I i :: R kWITH :: ts)
  | acc_create_schema sn ts : schema_name sn ts -> accepts (SCreateSchema sn) (R kCREATE :: R kSCHEMA :: ts)
  | acc_alter tn l ts ts' : table_name tn ts -> a_alter_actions l ts' ->
      accepts (SAlterTable tn l) (R kALTER :: R kTABLE :: ts ++ ts')
  | acc_drop_table b l tb ts tr : if_exists b tb -> table_names l ts -> In tr [[]; [R kRESTRICT]] ->
      accepts (SDropTable b false l) (R kDROP :: R kTABLE :: tb ++ ts ++ tr)
  | acc_drop_cascade b l tb ts : if_exists b tb -> table_names l ts ->
      accepts (SDropTable b true l) (R kDROP :: R kTABLE :: tb ++ ts ++ [R kCASCADE])
  | acc_drop_index b i tn tb ts : if_exists b tb -> table_name tn ts ->
      accepts (SDropIndex tn i b) (R kDROP :: R kINDEX :: tb ++ I i :: R kON :: ts)
  | acc_drop_database b i tb : if_exists b tb -> accepts (SDropDatabase b i []) (R kDROP :: R kDATABASE :: tb ++ [I i])
  | acc_drop_schema b sn tb ts : if_exists b tb -> schema_name sn ts ->
      accepts (SDropSchema b sn) (R kDROP :: R kSCHEMA :: tb ++ ts).
End Accepts.

(** The parser accepts the text as the statement, given the numbers of the names. *)
Section Texts.
  Context {X : FloatLib} {L : CaseLib} {P : PrintLib}.

  Inductive token_read (T : idtable) : tokval -> tok -> Prop :=
  | tr_token v k : token_in T v k -> token_read T v k
  | tr_bytes b l : token_read T (TBytes b) (KBytes l).
  Definition text_accepts (T : idtable) (vs : list tokval) (s : stmt) : Prop :=
    exists ts, Forall2 (token_read T) vs ts /\ accepts (number T) (idString T) s ts.
  Definition expr_accepts (T : idtable) (vs : list tokval) (e : expr) : Prop :=
    exists ts, Forall2 (token_read T) vs ts /\ a_whole (number T) (idString T) e ts.
End Texts.

(** COPY. *)
Definition copies (s : stmt) : bool := match s with SCopy _ _ _ _ => true | _ => false end.
