(** Specification of tables of structs. *)

From Verif Require Export ModelTyped SpecTable.

(** What is assumed of the rounding to a float32: its result is a float64, and
    rounding it again changes nothing. *)
Definition Float32Lib_ok (F : Float32Lib) : Prop :=
  forall p, is_u64 p -> is_u64 (x_round32 p) /\ x_round32 (x_round32 p) = x_round32 p.

(** The integers of a kind. *)
Definition in_kind (k : kind) (i : Z) : Prop :=
  match k with
  | KInt | KInt64 => - 2 ^ 63 <= i < 2 ^ 63
  | KInt8 => - 2 ^ 7 <= i < 2 ^ 7
  | KInt16 => - 2 ^ 15 <= i < 2 ^ 15
  | KInt32 => - 2 ^ 31 <= i < 2 ^ 31
  | _ => False
  end.

(** Values of a kind. *)
Definition of_kind {F : Float32Lib} (k : kind) (v : fval) : Prop :=
  match v with
  | FBool _ => k = KBool
  | FInt k' i => k' = k /\ in_kind k i
  | FFloat k' p =>
      k' = k /\ is_u64 p /\ (k = KFloat64 \/ k = KFloat32 /\ exists q, is_u64 q /\ p = x_round32 q)
  | FString _ => k = KString
  | FBytes _ => k = KBytes
  | _ => False
  end.

(** Values of a type. *)
Definition has_type {F : Float32Lib} (ft : ftype) (v : fval) : Prop :=
  match ft with
  | FTBase k => of_kind k v
  | FTPtr k => exists o, v = FPtr k o /\ forall v', o = Some v' -> of_kind k v'
  end.

(** A struct of a type. *)
Definition of_struct {F : Float32Lib} (st : stype) (g : gostruct) : Prop :=
  gs_type g = st_name st /\ Forall2 (fun fd v => has_type (fd_type fd) v) (st_fields st) (gs_fields g).

(** Pointers that can be read back. *)
Definition readable (ft : ftype) : Prop :=
  match ft with
  | FTBase _ => True
  | FTPtr k => k = KBool \/ k = KString \/ k = KFloat64 \/ k = KInt64
  end.

(** The typed info was made by the function for it. *)
Definition made_for (ti : typedinfo) (st : stype) : Prop :=
  exists (U : RuneLib) (X : FloatLib) (L : CaseLib) (G : GobLib) w x tid tn w' h,
    exec w x (MakeTypedInfo tid tn st) = (Ok ti, w', h).

(** The text of a field is not longer than the size in the tag allows. *)
Definition text_fits (n : Z) (v : fval) : Prop :=
  match v with
  | FString s | FPtr _ (Some (FString s)) | FBytes (Some s) => zlen s <= n
  | _ => True
  end.

(** Two fields are the same, except that a nil slice comes back as an empty one
    if the column is not null. *)
Definition same_field (ct : coltype) (v v' : fval) : Prop :=
  v' = v \/ (ct_notnull ct = true /\ v = FBytes None /\ v' = FBytes (Some [])).

(** The program registers and reads identifiers only. *)
Inductive quiet {A} : prog A -> Prop :=
  | quiet_ret r : quiet (PRet r)
  | quiet_id s q k : (forall i, quiet (k i)) -> quiet (PID s q k)
  | quiet_name i k : (forall s, quiet (k s)) -> quiet (PName i k).

(** Its result. *)
Fixpoint qrun {A} {L : CaseLib} (t : idtable) (p : prog A) : res A * idtable :=
  match p with
  | PRet r => (r, t)
  | PCall _ _ => (Panic, t)
  | PID s q k => qrun (fst (ID t s q)) (k (snd (ID t s q)))
  | PName i k => qrun t (k (idString t i))
  end.

(** The end of the file stops a loop without being an error. *)
Definition not_eof (e : error) : option error := match e with EOF => None | _ => Some e end.

(** A function is applied to rows in turn until it gives an error or panics. *)
Fixpoint visit {L : CaseLib} {S} (fn : S -> row -> prog (S * option error)) (t : idtable) (s : S) (l : list row)
  : res (S * option error) :=
  match l with
  | [] => Ok (s, None)
  | r :: l' =>
      match qrun t (fn s r) with
      | (Ok (s', None), t') => visit fn t' s' l'
      | (Ok (s', Some e), _) => Ok (s', not_eof e)
      | (Err e, _) => Err e
      | (Panic, _) => Panic
      end
  end.

(** The same, with the rows the function wants deleted. *)
Fixpoint visit_delete {L : CaseLib} {S} (fn : S -> row -> prog (S * (bool + error))) (t : idtable) (s : S) (l : list row)
  : list row * res (S * option error) :=
  match l with
  | [] => ([], Ok (s, None))
  | r :: l' =>
      match qrun t (fn s r) with
      | (Ok (s', inl b), t') =>
          let '(d, res) := visit_delete fn t' s' l' in ((if b then r :: d else d), res)
      | (Ok (s', inr e), _) => ([], Ok (s', not_eof e))
      | (Err e, _) => ([], Err e)
      | (Panic, _) => ([], Panic)
      end
  end.

(** The table of a typed info. *)
Definition table_of (ti : typedinfo) : table := {|
  tb_tid := ti_tid ti;
  tb_tt := {| tt_version := 1; tt_name := ti_tn ti; tt_cols := ti_cols ti; tt_types := ti_types ti; tt_key := ti_primary ti |}
|}.

(** The same, with the rows the function wants updated: the contents before and
    after; the function ends with an error if an update does. *)
Inductive visit_update {X : FloatLib} {L : CaseLib} {S} (ti : typedinfo) (kc : list (nat * bool))
    (fn : S -> row -> prog (S * (option upstruct + error)))
  : idtable -> S -> list row -> tree -> res (S * option error) -> tree -> Prop :=
  | vu_end t s c : visit_update ti kc fn t s [] c (Ok (s, None)) c
  | vu_panic t s r l c t' : qrun t (fn s r) = (Panic, t') -> visit_update ti kc fn t s (r :: l) c Panic c
  | vu_abort t s r l c e t' : qrun t (fn s r) = (Err e, t') -> visit_update ti kc fn t s (r :: l) c (Err e) c
  | vu_error t s r l c s' e t' :
      qrun t (fn s r) = (Ok (s', inr e), t') -> visit_update ti kc fn t s (r :: l) c (Ok (s', not_eof e)) c
  | vu_skip t s r l c s' t' res c' :
      qrun t (fn s r) = (Ok (s', inl None), t') -> visit_update ti kc fn t' s' l c res c' ->
      visit_update ti kc fn t s (r :: l) c res c'
  | vu_unknown t s r l c s' t' u :
      qrun t (fn s r) = (Ok (s', inl (Some u)), t') -> structToColsVals ti u = Panic ->
      visit_update ti kc fn t s (r :: l) c Panic c
  | vu_done t s r l c s' t' u cols vals c1 res c' :
      qrun t (fn s r) = (Ok (s', inl (Some u)), t') -> structToColsVals ti u = Ok (cols, vals) ->
      updated (table_of ti) kc c r cols vals ODone c1 -> visit_update ti kc fn t' s' l c1 res c' ->
      visit_update ti kc fn t s (r :: l) c res c'
  | vu_fail t s r l c s' t' u cols vals e c1 :
      qrun t (fn s r) = (Ok (s', inl (Some u)), t') -> structToColsVals ti u = Ok (cols, vals) ->
      updated (table_of ti) kc c r cols vals (OErr e) c1 ->
      visit_update ti kc fn t s (r :: l) c (Ok (s', Some e)) c1.

(** What is to be updated has fields of the struct, with values that exist in
    Go. *)
Definition update_typed {F : Float32Lib} (u : upstruct) : Prop :=
  Forall (fun nv => exists ft, has_type ft (snd nv)) u.

(** Operations on transaction [x] that create or drop no table and do not
    complete it. *)
Definition gentle (x : nat) (o : op) : Prop :=
  match o with
  | Begin _ => False
  | Intern _ _ => True
  | Call y c =>
      y = x /\ op_typed o /\
      match c with CCreateTable _ _ _ _ _ | CDropTable _ | CCommit | CRollback => False | _ => True end
  end.
Definition gentle_log (x : nat) (lg : history) : Prop := Forall (gentle x) (map fst lg).

(** The transaction is active, and the table of the typed info can be opened in
    it; its key is on the given columns. *)
Record can_open {X : FloatLib} {L : CaseLib} {G : GobLib} (h : history) (w : world) (x : nat) (t : tree)
    (ti : typedinfo) (kc : list (nat * bool)) : Prop := {
  co_orderly : orderly (ti_tid ti) h w;
  co_view : view w x = Some t;
  co_u32 : is_u32 (ti_tid ti);
  co_open : fst (step w (Call x (COpenTable (ti_tid ti) (ti_tn ti) (ti_cols ti) (ti_types ti) (ti_primary ti)))) = ODone;
  co_key : ti_primary ti = keys_of kc;
  co_small : small_cols kc
}.

(** The identifiers known once it is open. *)
Definition idt_open {X : FloatLib} {L : CaseLib} {G : GobLib} (w : world) (x : nat) (ti : typedinfo) : idtable :=
  sh_idt (w_sh (snd (step w (Call x (COpenTable (ti_tid ti) (ti_tn ti) (ti_cols ti) (ti_types ti) (ti_primary ti)))))).

(** The row a struct is for: none for nil. *)
Definition bound_for {F : Float32Lib} (ti : typedinfo) (st : stype) (g : option gostruct) (r : option row) : Prop :=
  (forall g0, g = Some g0 -> of_struct st g0) /\ structToRow ti g = Ok r.

(** Rows are inserted one after the other, until one has the key of a row that
    is there: the rows before and after. *)
Inductive inserts (kc : list (nat * bool)) : list row -> list row -> res unit -> list row -> Prop :=
  | ins_end have : inserts kc have [] (Ok tt) have
  | ins_next have r new res have' :
      ~ (exists r0, In r0 have /\ same_key kc r r0) -> inserts kc (r :: have) new res have' ->
      inserts kc have (r :: new) res have'
  | ins_duplicate have r new :
      (exists r0, In r0 have /\ same_key kc r r0) -> inserts kc have (r :: new) (Err ErrDuplicateKey) have.

(** The texts of the struct are not longer than the sizes of the columns. *)
Definition texts_fit (ti : typedinfo) (g : gostruct) : Prop :=
  Forall2 (fun ct v => text_fits (ct_size ct) v) (ti_types ti) (gs_fields g).

(** The type of a column for a field: only pointers and slices can be NULL. *)
Definition column_type_for (fd : field) (ct : coltype) : Prop :=
  match fd_type fd with
  | FTBase KBool => ct_type ct = BoolType /\ ct_notnull ct = true
  | FTBase KString => ct_type ct = StringType /\ ct_notnull ct = true
  | FTBase KFloat32 | FTBase KFloat64 => ct_type ct = Float64Type /\ ct_notnull ct = true
  | FTBase KInt8 => ct_type ct = Int64Type /\ ct_size ct = 1 /\ ct_notnull ct = true
  | FTBase KInt16 => ct_type ct = Int64Type /\ ct_size ct = 2 /\ ct_notnull ct = true
  | FTBase KInt32 => ct_type ct = Int64Type /\ ct_size ct = 4 /\ ct_notnull ct = true
  | FTBase KInt | FTBase KInt64 => ct_type ct = Int64Type /\ ct_size ct = 8 /\ ct_notnull ct = true
  | FTBase KBytes => ct_type ct = BytesType
  | FTPtr KBool => ct_type ct = BoolType /\ ct_notnull ct = false
  | FTPtr KString => ct_type ct = StringType /\ ct_notnull ct = false
  | FTPtr KFloat32 | FTPtr KFloat64 => ct_type ct = Float64Type /\ ct_notnull ct = false
  | FTPtr KInt8 => ct_type ct = Int64Type /\ ct_size ct = 1 /\ ct_notnull ct = false
  | FTPtr KInt16 => ct_type ct = Int64Type /\ ct_size ct = 2 /\ ct_notnull ct = false
  | FTPtr KInt32 => ct_type ct = Int64Type /\ ct_size ct = 4 /\ ct_notnull ct = false
  | FTPtr KInt | FTPtr KInt64 => ct_type ct = Int64Type /\ ct_size ct = 8 /\ ct_notnull ct = false
  | _ => False
  end.
