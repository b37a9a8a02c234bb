(** evaluate/session.go and evaluate/evaluate.go: sessions. *)

From Verif Require Export ModelSql ModelEngine.

(** The constants [types.DATABASE] and [types.SCHEMA],
    types/identifier.go:83, 122. *)
Definition ID_DATABASE : Z := -19.
Definition ID_SCHEMA : Z := -58.

(** [Session], evaluate/session.go:17-23, without [eng] and [id]; the
    transaction is given by its position. *)
Record session : Set := { ss_tx : option nat; ss_database : Z; ss_schema : Z }.

(** [ResolveTable], evaluate/session.go:34-42. *)
Definition sessionTable (ses : session) (tn : tablename) : tablename :=
  if tn_database tn =? 0 then
    {| tn_database := ss_database ses;
       tn_schema := if tn_schema tn =? 0 then ss_schema ses else tn_schema tn;
       tn_table := tn_table tn |}
  else tn.

(** [ResolveSchema], evaluate/session.go:44-49. *)
Definition sessionSchema (ses : session) (sn : schemaname) : schemaname :=
  if sn_database sn =? 0 then {| sn_database := ss_database ses; sn_schema := sn_schema sn |} else sn.

(** A session as [Resolver], evaluate/session.go:52. *)
Definition sessionResolver (ses : session) : resolver :=
  {| ResolveTable := sessionTable ses; ResolveSchema := sessionSchema ses |}.

(** [columnNumber], evaluate/evaluate.go:44-51. *)
Fixpoint columnNumberFrom (num : Z) (nam : Z) (colNames : list Z) : option Z :=
  match colNames with
  | [] => None
  | col :: l => if nam =? col then Some num else columnNumberFrom (num + 1) nam l
  end.
Definition columnNumber (nam : Z) (colNames : list Z) : option Z := columnNumberFrom 0 nam colNames.

(** [indexKeyToColumnKey], evaluate/evaluate.go:53-66: [inr] is the column that
    is not there; [None] an index out of range. *)
Fixpoint indexKeyLoop (key : list Z) (cols : list Z) (rev : list bool) (colNames : list Z) : option (list Z + Z) :=
  match cols with
  | [] => Some (inl key)
  | col :: cols' =>
      match columnNumber col colNames with
      | None => Some (inr col)
      | Some num =>
          match rev with
          | [] => None
          | r :: rev' => indexKeyLoop (key ++ [MakeColumnKey num r]) cols' rev' colNames
          end
      end
  end.
Definition indexKeyToColumnKey (ik : indexkey) (colNames : list Z) : option (list Z + Z) :=
  indexKeyLoop [] (ik_columns ik) (ik_reverse ik) colNames.

(** The first primary key, evaluate/evaluate.go:104-115. *)
Fixpoint primaryKey (csts : list (constraint expr)) : option indexkey :=
  match csts with
  | [] => None
  | c :: l => match con_type c with PrimaryConstraint => Some (con_key c) | _ => primaryKey l end
  end.

Section Evaluate.
  Context {F : Float32Lib} {X : FloatLib} {L : CaseLib} {G : GobLib} {E : EGobLib}.
  Context (I : einfos).

  (** [EvaluateCreateIndex], evaluate/evaluate.go:68-94; [tt.Indexes] is nil. *)
  Definition EvaluateCreateIndex (s : eworld) (k : nat) (index : Z) (tn : tablename) (key : indexkey) (ifNotExists : bool)
    : eout * eworld :=
    match estep I s (EOpenTable k tn) with
    | (ETable _ ty, s1) =>
        match indexKeyToColumnKey key (ett_cols ty) with
        | None => (EPanic, s1)
        | Some (inr col) => if col =? 0 then estep I s1 (ECreateIndex k tn index []) else (EErr ErrNoColumn, s1)
        | Some (inl ck) => estep I s1 (ECreateIndex k tn index ck)
        end
    | r => r
    end.

  (** [EvaluateCreateTable], evaluate/evaluate.go:96-122. *)
  Definition EvaluateCreateTable (s : eworld) (k : nat) (tn : tablename) (cols : list Z) (types : list coltype) (ifNotExists : bool)
      (csts : list (constraint expr)) : eout * eworld :=
    match estep I s (EOpenTable k tn) with
    | (ETable _ _, s1) => if ifNotExists then (EDone, s1) else (EErr ErrTableExists, s1)
    | (EErr _, s1) =>
        match primaryKey csts with
        | None => estep I s1 (ECreateTable k tn cols types [])
        | Some key =>
            match indexKeyToColumnKey key cols with
            | None => (EPanic, s1)
            | Some (inr col) => if col =? 0 then estep I s1 (ECreateTable k tn cols types []) else (EErr ErrNoColumn, s1)
            | Some (inl primary) => estep I s1 (ECreateTable k tn cols types primary)
            end
        end
    | r => r
    end.

  (** [EvaluateDropTable], evaluate/evaluate.go:131-143. *)
  Fixpoint EvaluateDropTable (s : eworld) (k : nat) (tables : list tablename) : eout * eworld :=
    match tables with
    | [] => (EDone, s)
    | tn :: l =>
        match estep I s (EDropTable k tn) with
        | (EDone, s1) => EvaluateDropTable s1 k l
        | r => r
        end
    end.

  (** [Evaluate], evaluate/evaluate.go:13-42, with [EvaluateDropIndex],
      evaluate/evaluate.go:124-129. *)
  Definition Evaluate (s : eworld) (k : nat) (st : stmt) : eout * eworld :=
    match st with
    | SCreateIndex index tn key b => EvaluateCreateIndex s k index tn key b
    | SCreateSchema sn => estep I s (ECreateSchema k (sn_database sn) (sn_schema sn))
    | SCreateTable tn cols types _ b csts _ => EvaluateCreateTable s k tn cols types b csts
    | SDropIndex tn index _ => estep I s (EDropIndex k tn index)
    | SDropSchema b sn => estep I s (EDropSchema k (sn_database sn) (sn_schema sn) b)
    | SDropTable _ _ tables => EvaluateDropTable s k tables
    | _ => (EPanic, s)
    end.

  (** What [Session.Evaluate] does without a transaction of the session,
      evaluate/session.go:95-103: the error of [Rollback] is ignored. *)
  Definition evaluateAlone (s : eworld) (st : stmt) : eout * eworld :=
    let k := length (e_txs s) in
    match estep I s EBegin with
    | (EDone, s1) =>
        match Evaluate s1 k st with
        | (EErr e, s2) =>
            match estep I s2 (ERollback k) with
            | (EPanic, s3) => (EPanic, s3)
            | (_, s3) => (EErr e, s3)
            end
        | (EDone, s2) => estep I s2 (ECommit k)
        | r => r
        end
    | r => r
    end.

  (** [Session.Evaluate], evaluate/session.go:51-106, and [set],
      evaluate/session.go:108-118; a nil statement panics.  A call is one step: it
      holds the lock of the store from [Begin] to the end, or does not use the
      store. *)
  Definition sessionEvaluate (s : eworld) (ses : session) (o : option stmt) : eout * eworld * session :=
    match o with
    | None => (EPanic, s, ses)
    | Some st =>
        let with_tx := fun tx => {| ss_tx := tx; ss_database := ss_database ses; ss_schema := ss_schema ses |} in
        let complete := fun r : eout * eworld =>
          match r with (EPanic, s1) => (EPanic, s1, ses) | (out, s1) => (out, s1, with_tx None) end in
        match Resolve (sessionResolver ses) st, ss_tx ses with
        | SBegin, Some _ => (EErr ErrInTx, s, ses)
        | SBegin, None =>
            match estep I s EBegin with
            | (EDone, s1) => (EDone, s1, with_tx (Some (length (e_txs s))))
            | (out, s1) => (out, s1, ses)
            end
        | SCommit, None => (EErr ErrNoTx, s, ses)
        | SCommit, Some k => complete (estep I s (ECommit k))
        | SCreateDatabase _ _, Some _ => (EErr ErrInTx, s, ses)
        | SCreateDatabase d opts, None => (estep I s (ECreateDatabase d (map snd opts)), ses)
        | SDropDatabase _ _ _, Some _ => (EErr ErrInTx, s, ses)
        | SDropDatabase b d _, None => (estep I s (EDropDatabase d b), ses)
        | SRollback, None => (EErr ErrNoTx, s, ses)
        | SRollback, Some k => complete (estep I s (ERollback k))
        | SSet var val, _ =>
            if var =? ID_DATABASE then
              (estep I s (EIntern val false),
               {| ss_tx := ss_tx ses; ss_database := snd (ID (sh_idt (w_sh (e_w s))) val false); ss_schema := ss_schema ses |})
            else if var =? ID_SCHEMA then
              (estep I s (EIntern val false),
               {| ss_tx := ss_tx ses; ss_database := ss_database ses; ss_schema := snd (ID (sh_idt (w_sh (e_w s))) val false) |})
            else (EErr ErrNoVariable, s, ses)
        | st', None => (evaluateAlone s st', ses)
        | st', Some k => (Evaluate s k st', ses)
        end
    end.

  (** An engine with its sessions, evaluate/session.go:25-32. *)
  Record sworld : Set := { s_e : eworld; s_sessions : list session }.

  (** What happens: [NewSession], evaluate/session.go:25-32; [Session.Evaluate] of
      the session with that position, evaluate/session.go:51-106; and [types.ID]
      called by others. *)
  Inductive scall : Set :=
    | SNew (database schema : Z)
    | SEval (i : nat) (o : option stmt)
    | SIntern (s : bytes) (quoted : bool).

  (** One step, evaluate/session.go:25-106. *)
  Definition sstep (w : sworld) (c : scall) : eout * sworld :=
    match c with
    | SNew d s => (EDone, {| s_e := s_e w; s_sessions := s_sessions w ++ [{| ss_tx := None; ss_database := d; ss_schema := s |}] |})
    | SEval i o =>
        match nth_error (s_sessions w) i with
        | None => (ENoObject, w)
        | Some ses =>
            let '(out, s', ses') := sessionEvaluate (s_e w) ses o in
            (out, {| s_e := s'; s_sessions := set_nth i ses' (s_sessions w) |})
        end
    | SIntern s q => let '(out, s') := estep I (s_e w) (EIntern s q) in (out, {| s_e := s'; s_sessions := s_sessions w |})
    end.

  (** Steps one after the other. *)
  Fixpoint srun (w : sworld) (cs : list scall) : list eout * sworld :=
    match cs with
    | [] => ([], w)
    | c :: cs' =>
        let '(out, w1) := sstep w c in
        let '(outs, w2) := srun w1 cs' in
        (out :: outs, w2)
    end.
End Evaluate.
