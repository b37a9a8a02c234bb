(** The grammar of statements: which tokens say which statement.

    Literals of bytes are left out, as what the parser returns for them is wrong
    (C41), and so is COPY, behind which the rest of the line is not read as
    tokens. *)

From Verif Require Export SpecExpr.

Local Notation Dot := (KRune 46).
Local Notation Comma := (KRune 44).
Local Notation LP := (KRune 40).
Local Notation RP := (KRune 41).
Local Notation Star := (KRune 42).
Local Notation Minus := (KRune 45).
Local Notation AtSign := (KRune 64).
Local Notation Eq := (KRune 61).
Local Notation R := KReserved.
Local Notation I := KIdent.

(** Names. *)
Inductive schema_name : schemaname -> list tok -> Prop :=
| sn_one s : schema_name {| sn_database := 0; sn_schema := s |} [I s]
| sn_two d s : schema_name {| sn_database := d; sn_schema := s |} [I d; Dot; I s].

Inductive table_name : tablename -> list tok -> Prop :=
| tn_one t : table_name {| tn_database := 0; tn_schema := 0; tn_table := t |} [I t]
| tn_two s t : table_name {| tn_database := 0; tn_schema := s; tn_table := t |} [I s; Dot; I t]
| tn_three d s t : table_name {| tn_database := d; tn_schema := s; tn_table := t |} [I d; Dot; I s; Dot; I t].

(** An alias that has to be there, and one that may be missing. *)
Inductive some_alias : Z -> list tok -> Prop :=
| al_as a : some_alias a [R kAS; I a]
| al_bare a : some_alias a [I a].
Inductive opt_alias : Z -> list tok -> Prop :=
| al_none : opt_alias 0 []
| al_some a ts : some_alias a ts -> opt_alias a ts.

(** Names with commas between them, and with dots in front. *)
Inductive names : list Z -> list tok -> Prop :=
| nm_one i : names [i] [I i]
| nm_more i l ts : names l ts -> names (i :: l) (I i :: Comma :: ts).
Inductive dots : list Z -> list tok -> Prop :=
| dots_nil : dots [] []
| dots_more i l ts : dots l ts -> dots (i :: l) (Dot :: I i :: ts).

(** Names in parentheses, or nothing. *)
Inductive opt_names : list Z -> list tok -> Prop :=
| on_none : opt_names [] []
| on_some l ts : names l ts -> opt_names l (LP :: ts ++ [RP]).

(** The columns of a key, each with a direction. *)
Inductive direction : bool -> list tok -> Prop :=
| dir_none : direction false []
| dir_asc : direction false [R kASC]
| dir_desc : direction true [R kDESC].
Inductive key_columns : list Z -> list bool -> list tok -> Prop :=
| kc_one i r ts : direction r ts -> key_columns [i] [r] (I i :: ts)
| kc_more i r ts l rs ts' : direction r ts -> key_columns l rs ts' ->
    key_columns (i :: l) (r :: rs) (I i :: ts ++ Comma :: ts').
Inductive index_key (unique : bool) : indexkey -> list tok -> Prop :=
| ik_intro l rs ts : key_columns l rs ts -> NoDup l ->
    index_key unique {| ik_unique := unique; ik_columns := l; ik_reverse := rs |} (LP :: ts ++ [RP]).

(** What may be ordered by: columns. *)
Inductive order_columns : list (expr * bool) -> list tok -> Prop :=
| oc_one i r ts : direction r ts -> order_columns [(Ref [i], r)] (I i :: ts)
| oc_more i r ts l ts' : direction r ts -> order_columns l ts' ->
    order_columns ((Ref [i], r) :: l) (I i :: ts ++ Comma :: ts').
Inductive opt_order : list (expr * bool) -> list tok -> Prop :=
| oo_none : opt_order [] []
| oo_some l ts : order_columns l ts -> opt_order l (R kORDER :: R kBY :: ts).

(** The operators between operands, and whether they compare. *)
Definition infix_tokens : list (tok * sqlop * bool) :=
  [(KRune tAmpersand, BinaryAndOp, false); (KRune tBar, BinaryOrOp, false); (KRune tBarBar, ConcatOp, false);
   (KRune tEqual, EqualOp, true); (KRune tEqualEqual, EqualOp, true); (KRune tBangEqual, NotEqualOp, true);
   (KRune tLessGreater, NotEqualOp, true); (KRune tGreater, GreaterThanOp, true);
   (KRune tGreaterEqual, GreaterEqualOp, true); (KRune tLess, LessThanOp, true); (KRune tLessEqual, LessEqualOp, true);
   (KRune tGreaterGreater, RShiftOp, false); (KRune tLessLess, LShiftOp, false); (KRune tMinus, SubtractOp, false);
   (KRune tPercent, ModuloOp, false); (KRune tPlus, AddOp, false); (KRune tSlash, DivideOp, false);
   (KRune tStar, MultiplyOp, false); (R kAND, AndOp, true); (R kOR, OrOp, true)].

(** The words of a join. *)
Inductive join_words : jointype -> list tok -> Prop :=
| jw_join : join_words InnerJoin [R kJOIN]
| jw_inner : join_words InnerJoin [R kINNER; R kJOIN]
| jw_left : join_words LeftJoin [R kLEFT; R kJOIN]
| jw_left_outer : join_words LeftJoin [R kLEFT; R kOUTER; R kJOIN]
| jw_right : join_words RightJoin [R kRIGHT; R kJOIN]
| jw_right_outer : join_words RightJoin [R kRIGHT; R kOUTER; R kJOIN]
| jw_full : join_words FullJoin [R kFULL; R kJOIN]
| jw_full_outer : join_words FullJoin [R kFULL; R kOUTER; R kJOIN].

Section Grammar.
  (** The number of a name, and the name of a number. *)
  Variable id : bytes -> Z.
  Variable name : Z -> bytes.

  (** A query of a table of the metadata. *)
  Definition all_of (db sc t : Z) (results : option (list (selectresult expr))) (w : option expr) : stmt :=
    SSelect results (Some (FromTableAlias {| tn_database := db; tn_schema := sc; tn_table := t |} 0)) w [] None [].
  Definition column_is (column : bytes) (e : expr) : expr := BinaryExpr EqualOp (Ref [id column]) e.
  Definition text (i : Z) : expr := Literal (VString (name i)).
  (** The schema that is set, or the one given. *)
  Definition schema_is (sc : Z) : expr :=
    column_is (str "schema_name") (if sc =? 0 then Subquery Scalar AddOp None (SShow kSCHEMA) else text sc).

  (** What is behind SHOW. *)
  Inductive show : stmt -> list tok -> Prop :=
  | sh_columns i tn ts : In i [iCOLUMNS; iCONSTRAINTS] -> table_name tn ts ->
      show (all_of (tn_database tn) iMETADATA i None
              (Some (BinaryExpr AndOp (column_is (str "table_name") (text (tn_table tn))) (schema_is (tn_schema tn)))))
        (I i :: R kFROM :: ts)
  | sh_config :
      show (all_of iSYSTEM iINFO iCONFIG
              (Some [ExprResult (Ref [id (str "name")]) 0; ExprResult (Ref [id (str "value")]) 0; ExprResult (Ref [id (str "by")]) 0])
              (Some (column_is (str "hidden") (Literal (VBool false)))))
        [I iCONFIG]
  | sh_databases : show (all_of iSYSTEM iINFO iDATABASES None None) [I iDATABASES]
  | sh_schemas : show (all_of 0 iMETADATA iSCHEMAS None None) [I iSCHEMAS]
  | sh_schemas_from db : show (all_of db iMETADATA iSCHEMAS None None) [I iSCHEMAS; R kFROM; I db]
  | sh_tables : show (all_of 0 iMETADATA iTABLES None (Some (schema_is 0))) [I iTABLES]
  | sh_tables_from sn ts : schema_name sn ts ->
      show (all_of (sn_database sn) iMETADATA iTABLES None
              (Some (column_is (str "schema_name") (text (sn_schema sn)))))
        (I iTABLES :: R kFROM :: ts)
  | sh_setting i : ~ In i [iCOLUMNS; iCONSTRAINTS; iCONFIG; iDATABASES; iSCHEMAS; iTABLES] ->
      show (SShow i) [I i]
  | sh_database : show (SShow kDATABASE) [R kDATABASE]
  | sh_schema : show (SShow kSCHEMA) [R kSCHEMA].

  (** [operand] and [sub]: expressions as they are read from left to right;
      [whole]: grouped.  The left operand of IN, ANY and the like is an operand
      as it is read: what is in its parentheses is not grouped. *)
  Inductive operand : expr -> list tok -> Prop :=
  | op_true : operand (Literal (VBool true)) [R kTRUE]
  | op_false : operand (Literal (VBool false)) [R kFALSE]
  | op_null : operand (Literal VNull) [R kNULL]
  | op_string s : operand (Literal (VString s)) [KString s]
  | op_integer i : operand (Literal (VInt i)) [KInteger i]
  | op_float p : operand (Literal (VFloat p)) [KFloat p]
  | op_ref i l ts : dots l ts -> operand (Ref (i :: l)) (I i :: ts)
  | op_call0 f : operand (SExpr f []) [I f; LP; RP]
  | op_count : operand (SExpr iCOUNT_ALL []) [I iCOUNT; LP; Star; RP]
  | op_call f l ts : args l ts -> operand (SExpr f l) (I f :: LP :: ts ++ [RP])
  | op_paren e ts : sub e ts -> operand (UnaryExpr NoOp e) (LP :: ts ++ [RP])
  | op_query s ts : query s ts -> operand (Subquery Scalar AddOp None s) (LP :: ts ++ [RP])
  | op_exists s ts : query s ts -> operand (Subquery ModelSql.Exists AddOp None s) (R kEXISTS :: LP :: ts ++ [RP])
  with sub : expr -> list tok -> Prop :=
  | sub_operand e ts : operand e ts -> sub e ts
  | sub_not e ts : sub e ts -> sub (UnaryExpr NotOp e) (R kNOT :: ts)
  | sub_minus e ts : sub e ts -> sub (UnaryExpr NegateOp e) (Minus :: ts)
  | sub_infix t op b l r ts ts' : In (t, op, b) infix_tokens -> operand l ts -> sub r ts' ->
      sub (BinaryExpr op l r) (ts ++ t :: ts')
  | sub_is_null e ts : operand e ts -> sub (SExpr (id (str "is_null")) [e]) (ts ++ [R kIS; R kNULL])
  | sub_is_not_null e ts : operand e ts ->
      sub (UnaryExpr NotOp (SExpr (id (str "is_null")) [e])) (ts ++ [R kIS; R kNOT; R kNULL])
  | sub_in e s ts ts' : operand e ts -> query s ts' ->
      sub (Subquery Any EqualOp (Some e) s) (ts ++ R kIN :: LP :: ts' ++ [RP])
  | sub_not_in e s ts ts' : operand e ts -> query s ts' ->
      sub (Subquery All NotEqualOp (Some e) s) (ts ++ R kNOT :: R kIN :: LP :: ts' ++ [RP])
  | sub_any t op k e s ts ts' : In (t, op, true) infix_tokens -> In k [kANY; kSOME] -> operand e ts -> query s ts' ->
      sub (Subquery Any op (Some e) s) (ts ++ t :: R k :: LP :: ts' ++ [RP])
  | sub_all t op e s ts ts' : In (t, op, true) infix_tokens -> operand e ts -> query s ts' ->
      sub (Subquery All op (Some e) s) (ts ++ t :: R kALL :: LP :: ts' ++ [RP])
  with args : list expr -> list tok -> Prop :=
  | args_one e ts : sub e ts -> args [e] ts
  | args_more e l ts ts' : sub e ts -> args l ts' -> args (e :: l) (ts ++ Comma :: ts')
  with whole : expr -> list tok -> Prop :=
  | whole_intro e0 e ts : sub e0 ts -> tight e -> words e = words e0 -> whole e ts
  with wholes : list expr -> list tok -> Prop :=
  | wholes_one e ts : whole e ts -> wholes [e] ts
  | wholes_more e l ts ts' : whole e ts -> wholes l ts' -> wholes (e :: l) (ts ++ Comma :: ts')
  (** Rows, all of the same length. *)
  with rows : list (list expr) -> list tok -> Prop :=
  | rows_one l ts : wholes l ts -> rows [l] (LP :: ts ++ [RP])
  | rows_more l ls ts ts' : wholes l ts -> rows ls ts' -> Forall (fun l' => length l' = length l) ls ->
      rows (l :: ls) (LP :: ts ++ RP :: Comma :: ts')
  with result : selectresult expr -> list tok -> Prop :=
  | res_table t : result (TableResult t) [I t; Dot; Star]
  | res_expr e a ts ts' : whole e ts -> opt_alias a ts' -> result (ExprResult e a) (ts ++ ts')
  with results : list (selectresult expr) -> list tok -> Prop :=
  | rs_one r ts : result r ts -> results [r] ts
  | rs_more r l ts ts' : result r ts -> results l ts' -> results (r :: l) (ts ++ Comma :: ts')
  with opt_results : option (list (selectresult expr)) -> list tok -> Prop :=
  | or_star : opt_results None [Star]
  | or_list l ts : results l ts -> opt_results (Some l) ts
  with opt_whole : Z -> option expr -> list tok -> Prop :=
  | ow_none k : opt_whole k None []
  | ow_some k e ts : whole e ts -> opt_whole k (Some e) (R k :: ts)
  with opt_group : list expr -> list tok -> Prop :=
  | og_none : opt_group [] []
  | og_some l ts : wholes l ts -> opt_group l (R kGROUP :: R kBY :: ts)
  with opt_from : option fromitem -> list tok -> Prop :=
  | of_none : opt_from None []
  | of_some f ts : from_list f ts -> opt_from (Some f) (R kFROM :: ts)
  (** What is behind SELECT. *)
  with select : stmt -> list tok -> Prop :=
  | sel_intro r f w g h o tr tf tw tg th to : opt_results r tr -> opt_from f tf -> opt_whole kWHERE w tw ->
      opt_group g tg -> opt_whole kHAVING h th -> opt_order o to ->
      select (SSelect r f w g h o) (tr ++ tf ++ tw ++ tg ++ th ++ to)
  with query : stmt -> list tok -> Prop :=
  | q_select s ts : select s ts -> query s (R kSELECT :: ts)
  | q_values l ts : rows l ts -> query (SValues l) (R kVALUES :: ts)
  | q_show s ts : show s ts -> query s (R kSHOW :: ts)
  | q_table tn ts : table_name tn ts -> query (SSelect None (Some (FromTableAlias tn 0)) None [] None []) (R kTABLE :: ts)
  with from_operand : fromitem -> list tok -> Prop :=
  | fo_table tn a ts ts' : table_name tn ts -> opt_alias a ts' -> from_operand (FromTableAlias tn a) (ts ++ ts')
  | fo_index tn i a ts ts' : table_name tn ts -> opt_alias a ts' -> from_operand (FromIndexAlias tn i a) (ts ++ AtSign :: I i :: ts')
  | fo_query s a l ts ts' ts'' : query s ts -> some_alias a ts' -> opt_names l ts'' ->
      from_operand (FromStmt s a l) (LP :: ts ++ RP :: ts' ++ ts'')
  | fo_paren f ts : from_list f ts -> from_operand f (LP :: ts ++ [RP])
  (** [true]: the last join is a cross join, and ON or USING behind it would belong
      to it. *)
  with from_item : bool -> fromitem -> list tok -> Prop :=
  | fi_operand f ts : from_operand f ts -> from_item false f ts
  | fi_cross b l r ts ts' : from_operand l ts -> from_item b r ts' ->
      from_item true (FromJoin l r CrossJoin None []) (ts ++ R kCROSS :: R kJOIN :: ts')
  | fi_on jt l r e ts tj ts' te : from_operand l ts -> join_words jt tj -> from_item false r ts' -> whole e te ->
      from_item false (FromJoin l r jt (Some e) []) (ts ++ tj ++ ts' ++ R kON :: te)
  | fi_using jt l r c ts tj ts' tc : from_operand l ts -> join_words jt tj -> from_item false r ts' -> names c tc -> NoDup c ->
      from_item false (FromJoin l r jt None c) (ts ++ tj ++ ts' ++ R kUSING :: LP :: tc ++ [RP])
  (** Commas are cross joins, to the left. *)
  with from_list : fromitem -> list tok -> Prop :=
  | fl_intro b f f' ts ts' : from_item b f ts -> from_more f f' ts' -> from_list f' (ts ++ ts')
  with from_more : fromitem -> fromitem -> list tok -> Prop :=
  | fm_nil f : from_more f f []
  | fm_more b f r f' ts ts' : from_item b r ts -> from_more (FromJoin f r CrossJoin None []) f' ts' ->
      from_more f f' (Comma :: ts ++ ts').

  (** Behind ON DELETE and ON UPDATE. *)
  Inductive ref_action : refaction -> list tok -> Prop :=
  | ra_none : ref_action NoAction [R kNO; R kACTION]
  | ra_restrict : ref_action Restrict [R kRESTRICT]
  | ra_cascade : ref_action Cascade [R kCASCADE]
  | ra_null : ref_action SetNull [R kSET; R kNULL]
  | ra_default : ref_action SetDefault [R kSET; R kDEFAULT].
  Inductive on_actions : refaction -> refaction -> list tok -> Prop :=
  | oa_none : on_actions NoAction NoAction []
  | oa_delete d ts : ref_action d ts -> on_actions d NoAction (R kON :: R kDELETE :: ts)
  | oa_update u ts : ref_action u ts -> on_actions NoAction u (R kON :: R kUPDATE :: ts)
  | oa_delete_update d u ts ts' : ref_action d ts -> ref_action u ts' ->
      on_actions d u (R kON :: R kDELETE :: ts ++ R kON :: R kUPDATE :: ts')
  | oa_update_delete d u ts ts' : ref_action d ts -> ref_action u ts' ->
      on_actions d u (R kON :: R kUPDATE :: ts' ++ R kON :: R kDELETE :: ts).
  (** Behind FOREIGN KEY. *)
  Inductive foreign_key (cn : Z) : foreignkey -> list tok -> Prop :=
  | fk_intro c tn rc d u ts ts' ts'' to : names c ts -> table_name tn ts' -> opt_names rc ts'' -> on_actions d u to ->
      foreign_key cn
        {| fk_name := cn; fk_cols := c; fk_ref := tn; fk_refcols := rc; fk_ondelete := d; fk_onupdate := u |}
        (LP :: ts ++ RP :: R kREFERENCES :: ts' ++ ts'' ++ to).

  (** The name of a constraint; zero if there is none. *)
  Inductive opt_constraint : Z -> list tok -> Prop :=
  | oct_none : opt_constraint 0 []
  | oct_some i : i <> 0 -> opt_constraint i [R kCONSTRAINT; I i].

  (** The types of columns: the name, what it stands for, and whether a length may
      be given. *)
  Definition column_types : list (Z * coltype) :=
    let ct t s f := {| ct_type := t; ct_size := s; ct_fixed := f; ct_notnull := false |} in
    [ (2, ct BytesType 1 true); (45, ct BytesType 1 false); (3, ct BytesType 4294967294 false);
      (7, ct BytesType 4294967294 false); (8, ct BytesType 4294967294 false);
      (9, ct StringType 1 true); (10, ct StringType 1 true); (46, ct StringType 1 false);
      (43, ct StringType 4294967294 false); (4, ct BoolType 1 false); (5, ct BoolType 1 false);
      (18, ct Float64Type 8 false); (35, ct Float64Type 4 false); (39, ct Int64Type 2 false);
      (24, ct Int64Type 2 false); (23, ct Int64Type 4 false); (27, ct Int64Type 4 false);
      (25, ct Int64Type 4 false); (26, ct Int64Type 8 false); (1, ct Int64Type 8 false) ].
  Inductive column_type : coltype -> list tok -> Prop :=
  | cty_plain i ct : In (i, ct) column_types -> column_type ct [I i]
  | cty_double ct : In (18, ct) column_types -> column_type ct [I 18; I iPRECISION]
  | cty_sized i t s f n : In (i, {| ct_type := t; ct_size := s; ct_fixed := f; ct_notnull := false |}) column_types ->
      t = StringType \/ t = BytesType -> 0 <= n <= 4294967294 ->
      column_type {| ct_type := t; ct_size := n; ct_fixed := f; ct_notnull := false |} [I i; LP; KInteger n; RP].

  (** Constraints that may be added to those there are. *)
  Definition key_may_follow (csts : list (constraint expr)) (ct : contype) (cn : Z) (key : indexkey) : Prop :=
    Forall (fun c => con_name c <> cn /\ ~ (con_type c = PrimaryConstraint /\ ct = PrimaryConstraint) /\
                     (ik_columns (con_key c) <> ik_columns key \/ ik_reverse (con_key c) <> ik_reverse key)) csts.
  Definition column_may_follow (csts : list (constraint expr)) (ct : contype) (cn : Z) (col : Z) : Prop :=
    Forall (fun c => con_name c <> cn /\ ~ (con_colnum c = col /\ con_type c = ct)) csts.
  Definition key_constraint (ct : contype) (cn : Z) (key : indexkey) : constraint expr :=
    {| con_type := ct; con_name := cn; con_colnum := -1; con_key := key; con_check := None |}.
  (** No key: no columns, and not unique. *)
  Definition no_key : indexkey := {| ik_unique := false; ik_columns := []; ik_reverse := [] |}.
  Definition column_constraint (ct : contype) (cn col : Z) : constraint expr :=
    {| con_type := ct; con_name := cn; con_colnum := col; con_key := no_key; con_check := None |}.
  Definition check_constraint (cn col : Z) (e : expr) : constraint expr :=
    {| con_type := CheckConstraint; con_name := cn; con_colnum := col; con_key := no_key; con_check := Some e |}.
  (** The name of the constraint for a key, if none is given: the names of the
      columns. *)
  Fixpoint key_text (l : list Z) (suffix : bytes) : bytes :=
    match l with [] => suffix | c :: l' => name c ++ str "_" ++ key_text l' suffix end.
  Definition key_name (cn : Z) (l : list Z) (suffix : bytes) : Z :=
    if cn =? 0 then id (key_text l suffix) else cn.

  (** The constraints of the column [c], whose number is [col]: the type, the
      default, and the constraints and foreign keys of the table, before and
      after. *)
  Inductive column_details (c col : Z) :
      coltype * option expr * list (constraint expr) * list foreignkey -> list tok ->
      coltype * option expr * list (constraint expr) * list foreignkey -> Prop :=
  | cd_none st : column_details c col st [] st
  | cd_default ct cs fs e ts ts' st : whole e ts ->
      column_details c col (ct, Some e, cs, fs) ts' st ->
      column_details c col (ct, None, cs, fs) (R kDEFAULT :: ts ++ ts') st
  | cd_named_default cn ct cs fs e ts ts' st : cn <> 0 -> column_may_follow cs DefaultConstraint cn col -> whole e ts ->
      column_details c col (ct, Some e, cs ++ [column_constraint DefaultConstraint cn col], fs) ts' st ->
      column_details c col (ct, None, cs, fs) (R kCONSTRAINT :: I cn :: R kDEFAULT :: ts ++ ts') st
  | cd_not_null t s f d cs fs ts' st :
      column_details c col ({| ct_type := t; ct_size := s; ct_fixed := f; ct_notnull := true |}, d, cs, fs) ts' st ->
      column_details c col ({| ct_type := t; ct_size := s; ct_fixed := f; ct_notnull := false |}, d, cs, fs)
        (R kNOT :: R kNULL :: ts') st
  | cd_named_not_null cn t s f d cs fs ts' st : cn <> 0 -> column_may_follow cs NotNullConstraint cn col ->
      column_details c col ({| ct_type := t; ct_size := s; ct_fixed := f; ct_notnull := true |}, d,
                            cs ++ [column_constraint NotNullConstraint cn col], fs) ts' st ->
      column_details c col ({| ct_type := t; ct_size := s; ct_fixed := f; ct_notnull := false |}, d, cs, fs)
        (R kCONSTRAINT :: I cn :: R kNOT :: R kNULL :: ts') st
  | cd_primary cn tc ct d cs fs ts' st : opt_constraint cn tc ->
      let n := key_name cn [c] (str "primary") in
      let key := {| ik_unique := true; ik_columns := [c]; ik_reverse := [false] |} in
      key_may_follow cs PrimaryConstraint n key ->
      column_details c col (ct, d, cs ++ [key_constraint PrimaryConstraint n key], fs) ts' st ->
      column_details c col (ct, d, cs, fs) (tc ++ R kPRIMARY :: R kKEY :: ts') st
  | cd_unique cn tc ct d cs fs ts' st : opt_constraint cn tc ->
      let n := key_name cn [c] (str "unique") in
      let key := {| ik_unique := true; ik_columns := [c]; ik_reverse := [false] |} in
      key_may_follow cs UniqueConstraint n key ->
      column_details c col (ct, d, cs ++ [key_constraint UniqueConstraint n key], fs) ts' st ->
      column_details c col (ct, d, cs, fs) (tc ++ R kUNIQUE :: ts') st
  | cd_check cn tc ct d cs fs e ts ts' st : opt_constraint cn tc -> whole e ts ->
      column_details c col (ct, d, cs ++ [check_constraint cn col e], fs) ts' st ->
      column_details c col (ct, d, cs, fs) (tc ++ R kCHECK :: LP :: ts ++ RP :: ts') st
  | cd_references cn tc ct d cs fs tn rc od ou ts ts'' to ts' st : opt_constraint cn tc ->
      table_name tn ts -> opt_names rc ts'' -> (length rc <= 1)%nat -> on_actions od ou to ->
      column_details c col (ct, d, cs,
        fs ++ [{| fk_name := cn; fk_cols := [c]; fk_ref := tn; fk_refcols := rc; fk_ondelete := od; fk_onupdate := ou |}]) ts' st ->
      column_details c col (ct, d, cs, fs) (tc ++ R kREFERENCES :: ts ++ ts'' ++ to ++ ts') st.

  (** What is in the parentheses of CREATE TABLE: the table before and after. *)
  Inductive table_detail : ctable -> list tok -> ctable -> Prop :=
  | td_column s c ct ts ct' d cs fs ts' : ~ In c (cb_cols s) -> column_type ct ts ->
      column_details c (zlen (cb_cols s)) (ct, None, cb_csts s, cb_fks s) ts' (ct', d, cs, fs) ->
      table_detail s (I c :: ts ++ ts')
        {| cb_cols := cb_cols s ++ [c]; cb_types := cb_types s ++ [ct']; cb_defaults := cb_defaults s ++ [d];
           cb_csts := cs; cb_fks := fs |}
  | td_key s cn tc pr key ts : opt_constraint cn tc -> index_key true key ts ->
      let n := key_name cn (ik_columns key) (if pr : bool then str "primary" else str "unique") in
      let ct := if pr then PrimaryConstraint else UniqueConstraint in
      key_may_follow (cb_csts s) ct n key ->
      table_detail s (tc ++ (if pr then [R kPRIMARY; R kKEY] else [R kUNIQUE]) ++ ts)
        {| cb_cols := cb_cols s; cb_types := cb_types s; cb_defaults := cb_defaults s;
           cb_csts := cb_csts s ++ [key_constraint ct n key]; cb_fks := cb_fks s |}
  | td_check s cn tc e ts : opt_constraint cn tc -> whole e ts ->
      table_detail s (tc ++ R kCHECK :: LP :: ts ++ [RP])
        {| cb_cols := cb_cols s; cb_types := cb_types s; cb_defaults := cb_defaults s;
           cb_csts := cb_csts s ++ [check_constraint cn (-1) e]; cb_fks := cb_fks s |}
  | td_foreign s cn tc fk ts : opt_constraint cn tc -> foreign_key cn fk ts ->
      table_detail s (tc ++ R kFOREIGN :: R kKEY :: ts)
        {| cb_cols := cb_cols s; cb_types := cb_types s; cb_defaults := cb_defaults s;
           cb_csts := cb_csts s; cb_fks := cb_fks s ++ [fk] |}.
  Inductive table_details : ctable -> list tok -> ctable -> Prop :=
  | tds_one s ts s' : table_detail s ts s' -> table_details s ts s'
  | tds_more s ts s1 ts' s' : table_detail s ts s1 -> table_details s1 ts' s' ->
      table_details s (ts ++ Comma :: ts') s'.

  Inductive alter_action : alteraction -> list tok -> Prop :=
  | aa_foreign cn tc fk ts : opt_constraint cn tc -> foreign_key cn fk ts ->
      alter_action (AddForeignKey fk) (R kADD :: tc ++ R kFOREIGN :: R kKEY :: ts)
  | aa_drop i : alter_action (DropConstraint i false) [R kDROP; R kCONSTRAINT; I i]
  | aa_drop_if i : alter_action (DropConstraint i true) [R kDROP; R kCONSTRAINT; R kIF; R kEXISTS; I i]
  | aa_default c tc : In tc [[]; [R kCOLUMN]] ->
      alter_action (DropColumnConstraint c DefaultConstraint) (R kALTER :: tc ++ [I c; R kDROP; R kDEFAULT])
  | aa_not_null c tc : In tc [[]; [R kCOLUMN]] ->
      alter_action (DropColumnConstraint c NotNullConstraint) (R kALTER :: tc ++ [I c; R kDROP; R kNOT; R kNULL]).
  Inductive alter_actions : list alteraction -> list tok -> Prop :=
  | aas_one a ts : alter_action a ts -> alter_actions [a] ts
  | aas_more a l ts ts' : alter_action a ts -> alter_actions l ts' -> alter_actions (a :: l) (ts ++ Comma :: ts').

  Inductive if_exists : bool -> list tok -> Prop :=
  | ie_no : if_exists false []
  | ie_yes : if_exists true [R kIF; R kEXISTS].
  Inductive if_not_exists : bool -> list tok -> Prop :=
  | ine_no : if_not_exists false []
  | ine_yes : if_not_exists true [R kIF; R kNOT; R kEXISTS].

  (** DEFAULT or an expression. *)
  Inductive or_default : option expr -> list tok -> Prop :=
  | od_default : or_default None [R kDEFAULT]
  | od_expr e ts : whole e ts -> or_default (Some e) ts.
  Inductive insert_row : list (option expr) -> list tok -> Prop :=
  | ir_one o ts : or_default o ts -> insert_row [o] ts
  | ir_more o l ts ts' : or_default o ts -> insert_row l ts' -> insert_row (o :: l) (ts ++ Comma :: ts').
  Inductive insert_rows : list (list (option expr)) -> list tok -> Prop :=
  | irs_one l ts : insert_row l ts -> insert_rows [l] (LP :: ts ++ [RP])
  | irs_more l ls ts ts' : insert_row l ts -> insert_rows ls ts' -> insert_rows (l :: ls) (LP :: ts ++ RP :: Comma :: ts').
  Inductive updates : list (Z * option expr) -> list tok -> Prop :=
  | up_one i o ts : or_default o ts -> updates [(i, o)] (I i :: Eq :: ts)
  | up_more i o l ts ts' : or_default o ts -> updates l ts' -> updates ((i, o) :: l) (I i :: Eq :: ts ++ Comma :: ts').

  Inductive table_names : list tablename -> list tok -> Prop :=
  | tns_one tn ts : table_name tn ts -> table_names [tn] ts
  | tns_more tn l ts ts' : table_name tn ts -> table_names l ts' -> table_names (tn :: l) (ts ++ Comma :: ts').

  Context {X : FloatLib} {P : PrintLib}.

  (** The options of a database; names and numbers stand for their text. *)
  Inductive option_value : bytes -> tok -> Prop :=
  | ov_name i : option_value (name i) (I i)
  | ov_string s : option_value s (KString s)
  | ov_integer i : option_value (format_int i) (KInteger i)
  | ov_float p : option_value (x_format_float p) (KFloat p).
  Inductive db_options : list (Z * bytes) -> list tok -> Prop :=
  | do_one i v t eq : option_value v t -> In eq [[]; [Eq]] -> db_options [(i, v)] (I i :: eq ++ [t])
  | do_more i v t eq l ts : option_value v t -> In eq [[]; [Eq]] -> db_options l ts ->
      db_options ((i, v) :: l) (I i :: eq ++ t :: ts).

  (** What a variable is set to. *)
  Inductive setting : bytes -> list tok -> Prop :=
  | set_string s ts : whole (Literal (VString s)) ts -> setting s ts
  | set_true ts : whole (Literal (VBool true)) ts -> setting (str "true") ts
  | set_false ts : whole (Literal (VBool false)) ts -> setting (str "false") ts
  | set_integer i ts : whole (Literal (VInt i)) ts -> setting (format_int i) ts
  | set_float p ts : whole (Literal (VFloat p)) ts -> setting (x_print_float p) ts.

  (** Statements, without what ends them. *)
  Inductive says : stmt -> list tok -> Prop :=
  | say_begin : says SBegin [R kBEGIN]
  | say_start : says SBegin [R kSTART; R kTRANSACTION]
  | say_commit : says SCommit [R kCOMMIT]
  | say_rollback : says SRollback [R kROLLBACK]
  | say_query s ts : select s ts -> says s (R kSELECT :: ts)
  | say_values l ts : rows l ts -> says (SValues l) (R kVALUES :: ts)
  | say_show s ts : show s ts -> says s (R kSHOW :: ts)
  | say_explain s ts : select s ts -> says (SExplain s false) (R kEXPLAIN :: R kSELECT :: ts)
  | say_explain_verbose s ts : select s ts -> says (SExplain s true) (R kEXPLAIN :: R kVERBOSE :: R kSELECT :: ts)
  | say_set var v ts k : (var = kDATABASE /\ k = R kDATABASE) \/ (var = kSCHEMA /\ k = R kSCHEMA) \/ k = I var ->
      setting v ts -> says (SSet var v) (R kSET :: k :: Eq :: ts)
  | say_set_to var v ts k : (var = kDATABASE /\ k = R kDATABASE) \/ (var = kSCHEMA /\ k = R kSCHEMA) \/ k = I var ->
      setting v ts -> says (SSet var v) (R kSET :: k :: R kTO :: ts)
  | say_use v ts : setting v ts -> says (SSet kDATABASE v) (R kUSE :: ts)
  | say_insert tn l ls ts ts' ts'' : table_name tn ts -> opt_names l ts' -> NoDup l -> insert_rows ls ts'' ->
      says (SInsertValues tn l ls) (R kINSERT :: R kINTO :: ts ++ ts' ++ R kVALUES :: ts'')
  | say_update tn l w ts ts' tw : table_name tn ts -> updates l ts' -> opt_whole kWHERE w tw ->
      says (SUpdate tn l w) (R kUPDATE :: ts ++ R kSET :: ts' ++ tw)
  | say_delete tn w ts tw : table_name tn ts -> opt_whole kWHERE w tw ->
      says (SDelete tn w) (R kDELETE :: R kFROM :: ts ++ tw)
  | say_create_table b tn s tb ts ts' : if_not_exists b tb -> table_name tn ts -> table_details noTable ts' s ->
      says (SCreateTable tn (cb_cols s) (cb_types s) (cb_defaults s) b (cb_csts s) (cb_fks s))
        (R kCREATE :: R kTABLE :: tb ++ ts ++ LP :: ts' ++ [RP])
  | say_create_index u b i tn key tb ts tu ts' : if_not_exists b tb -> table_name tn ts -> In tu [[]; [R kUSING; I iBTREE]] ->
      index_key u key ts' ->
      says (SCreateIndex i tn key b)
        (R kCREATE :: (if u then [R kUNIQUE] else []) ++ R kINDEX :: tb ++ I i :: R kON :: ts ++ tu ++ ts')
  | say_create_database i : says (SCreateDatabase i []) [R kCREATE; R kDATABASE; I i]
  | say_create_database_with i l ts : db_options l ts -> NoDup (map fst l) ->
      says (SCreateDatabase i l) (R kCREATE :: R kDATABASE :: I i :: R kWITH :: ts)
  | say_create_schema sn ts : schema_name sn ts -> says (SCreateSchema sn) (R kCREATE :: R kSCHEMA :: ts)
  | say_alter tn l ts ts' : table_name tn ts -> alter_actions l ts' ->
      says (SAlterTable tn l) (R kALTER :: R kTABLE :: ts ++ ts')
  | say_drop_table b l tb ts tr : if_exists b tb -> table_names l ts -> In tr [[]; [R kRESTRICT]] ->
      says (SDropTable b false l) (R kDROP :: R kTABLE :: tb ++ ts ++ tr)
  | say_drop_cascade b l tb ts : if_exists b tb -> table_names l ts ->
      says (SDropTable b true l) (R kDROP :: R kTABLE :: tb ++ ts ++ [R kCASCADE])
  | say_drop_index b i tn tb ts : if_exists b tb -> table_name tn ts ->
      says (SDropIndex tn i b) (R kDROP :: R kINDEX :: tb ++ I i :: R kON :: ts)
  | say_drop_database b i tb : if_exists b tb -> says (SDropDatabase b i []) (R kDROP :: R kDATABASE :: tb ++ [I i])
  | say_drop_schema b sn tb ts : if_exists b tb -> schema_name sn ts ->
      says (SDropSchema b sn) (R kDROP :: R kSCHEMA :: tb ++ ts).
End Grammar.
