(** Specification of sessions: what statements do to the catalogue, and who has
    the transaction. *)

From Verif Require Export ModelSession SpecEngine.

(** ** Names *)

(** The parts of a name that are not given are those of the session: the
    database if none is given; the schema if neither is given. *)
Definition given (part : Z) : Prop := part <> 0.
Definition full_table (db sch : Z) (tn tn' : tablename) : Prop :=
  tn_table tn' = tn_table tn /\
  (given (tn_database tn) -> tn_database tn' = tn_database tn /\ tn_schema tn' = tn_schema tn) /\
  (~ given (tn_database tn) -> tn_database tn' = db) /\
  (~ given (tn_database tn) -> given (tn_schema tn) -> tn_schema tn' = tn_schema tn) /\
  (~ given (tn_database tn) -> ~ given (tn_schema tn) -> tn_schema tn' = sch).
Definition full_schema (db : Z) (sn sn' : schemaname) : Prop :=
  sn_schema sn' = sn_schema sn /\
  (given (sn_database sn) -> sn_database sn' = sn_database sn) /\
  (~ given (sn_database sn) -> sn_database sn' = db).

(** The table or schema that a statement is about, and that statement about
    others. *)
Fixpoint about (s : stmt) : list tablename * list schemaname :=
  match s with
  | SExplain s _ => about s
  | SCreateTable tn _ _ _ _ _ _ | SCreateIndex _ tn _ _ | SAlterTable tn _ | SDropIndex tn _ _ | SCopy tn _ _ _
  | SDelete tn _ | SInsertValues tn _ _ | SUpdate tn _ _ => ([tn], [])
  | SDropTable _ _ l => (l, [])
  | SCreateSchema sn | SDropSchema _ sn => ([], [sn])
  | _ => ([], [])
  end.
Definition hd_table (l : list tablename) : tablename := hd {| tn_database := 0; tn_schema := 0; tn_table := 0 |} l.
Definition hd_schema (l : list schemaname) : schemaname := hd {| sn_database := 0; sn_schema := 0 |} l.
Fixpoint about_others (s : stmt) (tns : list tablename) (sns : list schemaname) : stmt :=
  match s with
  | SExplain s v => SExplain (about_others s tns sns) v
  | SCreateTable _ a b c d e f => SCreateTable (hd_table tns) a b c d e f
  | SCreateIndex a _ b c => SCreateIndex a (hd_table tns) b c
  | SAlterTable _ a => SAlterTable (hd_table tns) a
  | SDropIndex _ a b => SDropIndex (hd_table tns) a b
  | SCopy _ a b c => SCopy (hd_table tns) a b c
  | SDelete _ a => SDelete (hd_table tns) a
  | SInsertValues _ a b => SInsertValues (hd_table tns) a b
  | SUpdate _ a b => SUpdate (hd_table tns) a b
  | SDropTable a b _ => SDropTable a b tns
  | SCreateSchema _ => SCreateSchema (hd_schema sns)
  | SDropSchema a _ => SDropSchema a (hd_schema sns)
  | _ => s
  end.

(** ** What statements do *)

(** The position of a column. *)
Fixpoint position (c : Z) (cols : list Z) : option nat :=
  match cols with
  | [] => None
  | d :: l => if c =? d then Some O else match position c l with Some i => Some (S i) | None => None end
  end.

(** The positions of the columns of a key, with the directions; or the first
    column that does not exist. *)
Fixpoint key_positions (key : list (Z * bool)) (cols : list Z) : list (nat * bool) + Z :=
  match key with
  | [] => inl []
  | (c, d) :: l =>
      match position c cols with
      | None => inr c
      | Some i => match key_positions l cols with inl ps => inl ((i, d) :: ps) | inr c => inr c end
      end
  end.

(** The columns of a key with their directions. *)
Definition key_columns (k : indexkey) : list (Z * bool) := combine (ik_columns k) (ik_reverse k).

(** The primary key. *)
Definition primary_constraint (c : constraint expr) : bool := match con_type c with PrimaryConstraint => true | _ => false end.
Definition primary_of (csts : list (constraint expr)) : list (Z * bool) :=
  match find primary_constraint csts with Some c => key_columns (con_key c) | None => [] end.

Section Statements.
  Context {L : CaseLib} {E : EGobLib}.

  (** The identifier of a column of a table. *)
  Definition column_id (t : idtable) (c : bool * bytes) : Z := snd (ID t (snd c) (negb (fst c))).

  (** What a statement with full names does to the catalogue.  A key with a
      column that does not exist is an error, unless its name is the empty one,
      identifier 0: then there is no key. *)
  Definition effect (t : idtable) (st : stmt) (c : catalogue) : nout * catalogue :=
    let n := idString t in
    match st with
    | SCreateSchema sn => create_schema (n (sn_database sn)) (n (sn_schema sn)) c
    | SDropSchema b sn => drop_schema (n (sn_database sn)) (n (sn_schema sn)) b c
    | SCreateTable tn cols types _ b csts _ =>
        let d := n (tn_database tn) in let s := n (tn_schema tn) in let nm := n (tn_table tn) in
        match fst (open_table d s nm c) with
        | NTable _ _ => ((if b then NDone else NErr ErrTableExists), c)
        | NErr _ =>
            match key_positions (primary_of csts) cols with
            | inl ps => create_table d s nm (def_of t cols types (keys_of ps)) c
            | inr 0 => create_table d s nm (def_of t cols types []) c
            | inr _ => (NErr ErrNoColumn, c)
            end
        | r => (r, c)
        end
    | SCreateIndex _ tn key _ =>
        match fst (open_table (n (tn_database tn)) (n (tn_schema tn)) (n (tn_table tn)) c) with
        | NTable _ td =>
            match key_positions (key_columns key) (map (column_id t) (td_cols td)) with
            | inl _ | inr 0 => (NDone, c)
            | inr _ => (NErr ErrNoColumn, c)
            end
        | r => (r, c)
        end
    | SDropTable _ _ _ | SDropIndex _ _ _ => (NDone, c)
    | _ => (NPanic, c)
    end.

  (** The same outside a transaction, where databases can be created and dropped. *)
  Definition alone_effect (t : idtable) (st : stmt) (c : catalogue) : nout * catalogue :=
    match st with
    | SCreateDatabase d [] => create_database (idString t d) c
    | SCreateDatabase _ _ => (NErr ErrOption, c)
    | SDropDatabase b d _ => drop_database (idString t d) b c
    | _ => effect t st c
    end.

  (** The same inside one, where they cannot. *)
  Definition inside_effect (t : idtable) (st : stmt) (c : catalogue) : nout * catalogue :=
    match st with
    | SCreateDatabase _ _ | SDropDatabase _ _ _ => (NErr ErrInTx, c)
    | _ => effect t st c
    end.

  (** ** Sessions *)

  (** The committed catalogue; the open transaction, if any, with its catalogue,
      and the session it belongs to, unless it belongs to nobody; and the defaults
      of the sessions. *)
  Record smachine : Set := {
    sm_cat : catalogue;
    sm_cur : option (option nat * catalogue);
    sm_ses : list (Z * Z)
  }.

  Definition owns (m : smachine) (i : nat) : bool :=
    match sm_cur m with Some (Some j, _) => (j =? i)%nat | _ => false end.

  Definition sm_with (m : smachine) (cat : catalogue) (cur : option (option nat * catalogue)) : smachine :=
    {| sm_cat := cat; sm_cur := cur; sm_ses := sm_ses m |}.
  Definition sm_default (m : smachine) (i : nat) (d : Z * Z) : smachine :=
    {| sm_cat := sm_cat m; sm_cur := sm_cur m; sm_ses := set_nth i d (sm_ses m) |}.

  (** What needs a transaction of its own. *)
  Definition own_transaction (m : smachine) (f : catalogue -> nout * catalogue) : nout * smachine :=
    match sm_cur m with
    | Some _ => (NBlocked, m)
    | None =>
        match f (sm_cat m) with
        | (NErr e, _) => (NErr e, m)
        | (NPanic, c) => (NPanic, sm_with m (sm_cat m) (Some (None, c)))
        | (out, c) => (out, sm_with m c None)
        end
    end.

  (** A statement of a session with these defaults; the identifiers are those
      known afterwards. *)
  Definition smstep (t : idtable) (m : smachine) (i : nat) (db sch : Z) (st : stmt) : nout * smachine :=
    match st with
    | SBegin =>
        if owns m i then (NErr ErrInTx, m)
        else match sm_cur m with Some _ => (NBlocked, m) | None => (NDone, sm_with m (sm_cat m) (Some (Some i, sm_cat m))) end
    | SCommit =>
        match sm_cur m with
        | Some (_, c) => if owns m i then (NDone, sm_with m c None) else (NErr ErrNoTx, m)
        | None => (NErr ErrNoTx, m)
        end
    | SRollback => if owns m i then (NDone, sm_with m (sm_cat m) None) else (NErr ErrNoTx, m)
    | SCreateDatabase d opts =>
        if owns m i then (NErr ErrInTx, m)
        else match opts with [] => own_transaction m (create_database (idString t d)) | _ => (NErr ErrOption, m) end
    | SDropDatabase b d _ =>
        if owns m i then (NErr ErrInTx, m) else own_transaction m (drop_database (idString t d) b)
    | SSet var val =>
        if var =? ID_DATABASE then (NDone, sm_default m i (snd (ID t val false), sch))
        else if var =? ID_SCHEMA then (NDone, sm_default m i (db, snd (ID t val false)))
        else (NErr ErrNoVariable, m)
    | _ =>
        match sm_cur m with
        | Some (Some j, c) =>
            if (j =? i)%nat then (fst (effect t st c), sm_with m (sm_cat m) (Some (Some i, snd (effect t st c)))) else (NBlocked, m)
        | _ => own_transaction m (effect t st)
        end
    end.

  (** The state of the machine in a state of the engine with its sessions. *)
  Record srepresents (w : sworld) (m : smachine) : Prop := {
    sr_sessions : map (fun s => (ss_database s, ss_schema s)) (s_sessions w) = sm_ses m;
    sr_machine : exists em, represents (s_e w) em /\ m_cat em = sm_cat m /\
      match sm_cur m with
      | None => m_cur em = None /\ Forall (fun s => ss_tx s = None) (s_sessions w)
      | Some (o, c) => exists k, m_cur em = Some (k, c) /\
          (forall i, o = Some i -> exists s j, nth_error (s_sessions w) i = Some s /\ k = Some j /\ ss_tx s = Some j) /\
          (forall i s, nth_error (s_sessions w) i = Some s -> o <> Some i -> ss_tx s = None)
      end
  }.

  (** The results that a statement has. *)
  Definition same_out (out : eout) (n : nout) : Prop :=
    match n with
    | NDone => out = EDone
    | NErr e => out = EErr e
    | NPanic => out = EPanic
    | NBlocked => out = EBlocked
    | _ => False
    end.
End Statements.

(** Statements whose identifiers exist, and whose keys have a direction for every
    column. *)
Definition known_table (t : idtable) (tn : tablename) : Prop :=
  known_id t (tn_database tn) /\ known_id t (tn_schema tn) /\ known_id t (tn_table tn).
Definition key_ok (k : indexkey) : Prop := length (ik_columns k) = length (ik_reverse k).
Definition known_stmt (t : idtable) (st : stmt) : Prop :=
  match st with
  | SCreateDatabase d _ | SDropDatabase _ d _ => known_id t d
  | SCreateSchema sn | SDropSchema _ sn => known_id t (sn_database sn) /\ known_id t (sn_schema sn)
  | SCreateTable tn cols _ _ _ csts _ => known_table t tn /\ Forall (known_id t) cols /\ Forall (fun c => key_ok (con_key c)) csts
  | SCreateIndex _ tn key _ => known_table t tn /\ key_ok key
  | _ => True
  end.
Definition known_scall (t : idtable) (c : scall) : Prop :=
  match c with
  | SNew d s => known_id t d /\ known_id t s
  | SEval _ (Some st) => known_stmt t st
  | _ => True
  end.

(** Statements that are not about the session itself. *)
Definition statement (st : stmt) : bool :=
  match st with SBegin | SCommit | SRollback | SSet _ _ => false | _ => true end.

(** Those that are implemented. *)
Definition supported (st : stmt) : bool :=
  match st with
  | SCreateDatabase _ _ | SDropDatabase _ _ _ | SCreateSchema _ | SDropSchema _ _ | SCreateTable _ _ _ _ _ _ _ | SDropTable _ _ _
  | SCreateIndex _ _ _ _ | SDropIndex _ _ _ => true
  | _ => false
  end.

(** Statements that wait for the open transaction of another. *)
Definition waits (st : stmt) : bool :=
  match st with SCommit | SRollback | SSet _ _ | SCreateDatabase _ (_ :: _) => false | _ => true end.

(** No transaction is open. *)
Definition unlocked (w : sworld) : Prop := forall x, ~ active (e_w (s_e w)) x.

(** What is committed is this catalogue. *)
Definition stored {E : EGobLib} (w : sworld) (c : catalogue) : Prop := holds (committed (e_w (s_e w))) c.

(** A transaction is open that belongs to no session. *)
Definition stuck (w : sworld) : Prop :=
  (exists x, active (e_w (s_e w)) x) /\ Forall (fun s => ss_tx s = None) (s_sessions w).

(** Whether a session is inside a transaction, given all that was done: its last
    BEGIN, COMMIT or ROLLBACK that succeeded was a BEGIN. *)
Fixpoint inside (h : list (scall * eout)) (i : nat) : bool :=
  match h with
  | [] => false
  | (SEval j (Some SBegin), EDone) :: h' => if (j =? i)%nat then true else inside h' i
  | (SEval j (Some SCommit), EDone) :: h' => if (j =? i)%nat then false else inside h' i
  | (SEval j (Some SRollback), EDone) :: h' => if (j =? i)%nat then false else inside h' i
  | _ :: h' => inside h' i
  end.

Section SReach.
  Context {F : Float32Lib} {X : FloatLib} {L : CaseLib} {G : GobLib} {E : EGobLib}.

  (** States of an engine with sessions. *)
  Inductive sreach (I : einfos) : sworld -> Prop :=
    | sr_booted s : booted I s -> sreach I {| s_e := s; s_sessions := [] |}
    | sr_step w c out w' : sreach I w -> known_scall (e_idt (s_e w)) c -> sstep I w c = (out, w') -> sreach I w'.

  (** States after more steps. *)
  Inductive afterwards (I : einfos) (ok : scall -> Prop) (w : sworld) : sworld -> Prop :=
    | af_now : afterwards I ok w w
    | af_step w1 c out w2 :
        afterwards I ok w w1 -> ok c -> known_scall (e_idt (s_e w1)) c -> sstep I w1 c = (out, w2) -> afterwards I ok w w2.

  (** The same with all that was done, the last first. *)
  Inductive sran (I : einfos) : list (scall * eout) -> sworld -> Prop :=
    | sn_booted s : booted I s -> sran I [] {| s_e := s; s_sessions := [] |}
    | sn_step h w c out w' :
        sran I h w -> known_scall (e_idt (s_e w)) c -> sstep I w c = (out, w') -> sran I ((c, out) :: h) w'.

  (** States after more steps of others and statements of a session in its
      transaction, with what the transaction sees. *)
  Inductive during (I : einfos) (i : nat) (w : sworld) (c : catalogue) : sworld -> catalogue -> Prop :=
    | du_now : during I i w c w c
    | du_mine w1 c1 st ses out w2 :
        during I i w c w1 c1 -> statement st = true -> known_stmt (e_idt (s_e w1)) st -> nth_error (s_sessions w1) i = Some ses ->
        sstep I w1 (SEval i (Some st)) = (out, w2) ->
        during I i w c w2 (snd (inside_effect (e_idt (s_e w2)) (Resolve (sessionResolver ses) st) c1))
    | du_other w1 c1 sc out w2 :
        during I i w c w1 c1 -> (forall st, sc = SEval i (Some st) -> statement st = false /\ st <> SCommit /\ st <> SRollback) ->
        known_scall (e_idt (s_e w1)) sc -> sstep I w1 sc = (out, w2) -> during I i w c w2 c1.
End SReach.

(** ** The tables that a statement names *)
Section Names.
  Fixpoint expr_tables (e : expr) : list tablename :=
    match e with
    | Literal _ | Ref _ => []
    | SExpr _ l => flat_map expr_tables l
    | UnaryExpr _ e => expr_tables e
    | BinaryExpr _ l r => expr_tables l ++ expr_tables r
    | Subquery _ _ e s => match e with Some e => expr_tables e | None => [] end ++ stmt_tables s
    end
  with stmt_tables (s : stmt) : list tablename :=
    let opt o := match o with Some e => expr_tables e | None => [] end in
    match s with
    | SExplain s _ => stmt_tables s
    | SCreateTable tn _ _ d _ csts fks =>
        tn :: flat_map opt d ++ flat_map (fun c => match con_check c with Some e => expr_tables e | None => [] end) csts ++ map fk_ref fks
    | SCreateIndex _ tn _ _ | SDropIndex tn _ _ | SCopy tn _ _ _ => [tn]
    | SAlterTable tn l => tn :: flat_map (fun a => match a with AddForeignKey fk => [fk_ref fk] | _ => [] end) l
    | SDropTable _ _ l => l
    | SDelete tn c => tn :: opt c
    | SInsertValues tn _ rows => tn :: flat_map (flat_map opt) rows
    | SUpdate tn us c => tn :: flat_map (fun u => opt (snd u)) us ++ opt c
    | SValues rows => flat_map (flat_map expr_tables) rows
    | SSelect rs f c g h o =>
        match rs with
        | Some l => flat_map (fun r => match r with ExprResult e _ => expr_tables e | TableResult _ => [] end) l
        | None => []
        end ++ match f with Some f => from_tables f | None => [] end ++ opt c ++ flat_map expr_tables g ++ opt h ++
        flat_map (fun p => expr_tables (fst p)) o
    | _ => []
    end
  with from_tables (f : fromitem) : list tablename :=
    match f with
    | FromTableAlias tn _ | FromIndexAlias tn _ _ => [tn]
    | FromStmt s _ _ => stmt_tables s
    | FromJoin l r _ c _ => from_tables l ++ from_tables r ++ match c with Some e => expr_tables e | None => [] end
    end.
End Names.
