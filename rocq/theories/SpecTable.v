(** Specification of tables: which rows they have and what the calls on them
    do. *)

From Coq Require Export Sorting.Permutation.
From Verif Require Export SpecStore SpecIdent.

(** The rows of a table in the contents of the store: those stored under the
    relation of its id. *)
Definition rows_in (t : tree) (tid : Z) : list row :=
  map it_row (filter (fun it => it_rel it =? tid * 2 ^ 32) t).

(** The table exists: there is a row for it in the table of table types. *)
Definition exists_in (t : tree) (tid : Z) : Prop :=
  exists b, In [VInt tid; VBytes b] (rows_in t 0).

(** Columns that column keys can be made of. *)
Definition small_cols (kc : list (nat * bool)) : Prop :=
  Forall (fun cd => Z.of_nat (fst cd) < 2 ^ 31 - 1) kc.

(** Arguments that Go's types admit, with column keys made by the API function
    for it. *)
Definition op_typed (o : op) : Prop :=
  match o with
  | Call _ (COpenTable tid _ _ _ _) => is_u32 tid
  | Call _ (CDropTable tid) => is_u32 tid
  | Call _ (CCreateTable tid _ _ cts p) =>
      is_u32 tid /\ Forall (fun ct => is_u32 (ct_size ct)) cts /\
      (forall k, p = Some k -> exists kc, small_cols kc /\ k = keys_of kc)
  | Call _ (CInsert _ rs) => Forall (Forall wf_value) rs
  | Call _ (CUpdate _ _ vals) => Forall wf_value vals
  | _ => True
  end.

(** The table id is used for a table. *)
Fixpoint created (tid : Z) (h : history) : bool :=
  match h with
  | [] => false
  | (Call _ (CCreateTable t _ _ _ _), ODone) :: h' => (t =? tid) || created tid h'
  | _ :: h' => created tid h'
  end.

(** A table is dropped. *)
Fixpoint dropped (tid : Z) (h : history) : bool :=
  match h with
  | [] => false
  | (Call _ (CDropTable t), ODone) :: h' => (t =? tid) || dropped tid h'
  | _ :: h' => dropped tid h'
  end.

(** The table id is used again for a table after one with it was dropped. *)
Fixpoint recreated (tid : Z) (h : history) : bool :=
  match h with
  | [] => false
  | (Call _ (CDropTable t), ODone) :: h' => if t =? tid then created tid h' else recreated tid h'
  | _ :: h' => recreated tid h'
  end.

(** Rows within bounds, by the order of the key columns. *)
Definition in_range (kc : list (nat * bool)) (mn mx : option row) (r : row) : bool :=
  match mn with
  | None => true
  | Some m => match key_order kc m r with Gt => false | _ => true end
  end &&
  match mx with
  | None => true
  | Some m => match key_order kc r m with Gt => false | _ => true end
  end.

(** A predicate holds of a value: it has a method for values of its type, and
    that says so. *)
Definition pred_holds (p : predicate) (v : value) : bool :=
  match v with
  | VNull => false
  | VBool b => match p_bool p with Some f => f b | None => false end
  | VString s => match p_string p with Some f => f s | None => false end
  | VBytes s => match p_bytes p with Some f => f s | None => false end
  | VFloat x => match p_float p with Some f => f x | None => false end
  | VInt i => match p_int p with Some f => f i | None => false end
  end.

(** Rows a scan is to find. *)
Definition wanted (kc : list (nat * bool)) (mn mx : option row) (p : option predicate) (r : row) : bool :=
  in_range kc mn mx r &&
  match p with
  | None => true
  | Some p => pred_holds p (nth (Z.to_nat (p_column p)) r VNull)
  end.

(** Values of a type. *)
Definition of_type (vt : valtype) (v : value) : Prop :=
  match v with
  | VNull => False
  | VBool _ => vt = BoolType
  | VString _ => vt = StringType
  | VBytes _ => vt = BytesType
  | VFloat _ => vt = Float64Type
  | VInt _ => vt = Int64Type
  end.

(** The predicate has the method for values of a type. *)
Definition has_method (p : predicate) (vt : valtype) : Prop :=
  match vt with
  | UnknownType => False
  | BoolType => p_bool p <> None
  | StringType => p_string p <> None
  | BytesType => p_bytes p <> None
  | Float64Type => p_float p <> None
  | Int64Type => p_int p <> None
  end.

(** Bounds of values that exist in Go. *)
Definition bound_wf (b : option row) : Prop := forall r, b = Some r -> Forall wf_value r.

(** Bounds that have all columns of the key. *)
Definition bound_fits (kc : list (nat * bool)) (b : option row) : Prop :=
  forall r, b = Some r -> key_fits kc r.

(** Two rows agree on the key. *)
Definition same_key (kc : list (nat * bool)) (r1 r2 : row) : Prop :=
  forall c d, In (c, d) kc -> same_key_value (nth c r1 VNull) (nth c r2 VNull).

(** The row reference denotes the rows with the key of row [r]. *)
Definition denotes (kc : list (nat * bool)) (rr : rowref) (r : row) : Prop :=
  MakeKey (keys_of kc) r = Some (rr_key rr).

(** Assign values to columns, one after the other. *)
Fixpoint assign (r : row) (cols : list Z) (vals : list value) : row :=
  match cols, vals with
  | c :: cols', v :: vals' =>
      assign (firstn (Z.to_nat c) r ++ v :: skipn (S (Z.to_nat c)) r) cols' vals'
  | _, _ => r
  end.

(** Some column of the key is assigned. *)
Definition assigns_key (kc : list (nat * bool)) (cols : list Z) : Prop :=
  exists c d, In (c, d) kc /\ In (Z.of_nat c) cols.

(** Nothing but the rows of one table changes. *)
Definition only_table (tid : Z) (t t' : tree) : Prop :=
  forall tid', 0 <= tid' -> tid' <> tid -> rows_in t' tid' = rows_in t tid'.

(** What may be stored in a column: NULL (for columns left out), what the
    column admits, or a text of 4 GiB or more. *)
Definition storable (ct : coltype) (v : value) : Prop :=
  v = VNull \/ admits ct v \/ exists s, (v = VString s \/ v = VBytes s) /\ 2 ^ 32 <= zlen s.

(** No row is updated. *)
Definition no_update (o : op) : Prop :=
  match o with Call _ (CUpdate _ _ _) => False | _ => True end.

(** The history of a run. *)
Definition ran {X : FloatLib} {L : CaseLib} {G : GobLib} (h : history) (w : world) : Prop :=
  exists t0, run (newStore t0) (map fst h) = (map snd h, w).

(** A history of well-typed calls in which the table id is not used again
    after the table with it was dropped. *)
Definition orderly {X : FloatLib} {L : CaseLib} {G : GobLib} (tid : Z) (h : history) (w : world) : Prop :=
  ran h w /\ Forall op_typed (map fst h) /\ recreated tid h = false.

(** The key of a table is on the given columns. *)
Definition keyed (tb : table) (kc : list (nat * bool)) : Prop :=
  small_cols kc /\ tt_key (tb_tt tb) = keys_of kc.

(** What is recorded of a table. *)
Definition recorded {G : GobLib} (t : tree) (tid : Z) (t0 : idtable) (ty : tabletype) : Prop :=
  In [VInt tid; VBytes (x_gob_encode (toWire t0 ty))] (rows_in t 0).

(** The attributes with which a table is opened are those recorded. *)
Definition matches (ty : tabletype) (tn : tablename) (cn : list Z) (ct : list coltype) (p : list Z) : Prop :=
  tt_name ty = tn /\ tt_cols ty = cn /\ tt_types ty = ct /\ tt_key ty = p.

(** The identifiers of a table. *)
Definition names_of (ty : tabletype) : list Z :=
  tn_database (tt_name ty) :: tn_schema (tt_name ty) :: tn_table (tt_name ty) :: tt_cols ty.

(** An identifier that was obtained from a spelling that is a reserved word, or
    a name of at most 128 bytes, but not one of the other keywords. *)
Definition proper_id {L : CaseLib} (ths : list idthread) (i : Z) : Prop :=
  exists s q m, returned ths s q i /\ means s q m /\
    (forall w, m = Keyword w -> In w reserved_words) /\ (length (meaning_text m) <= 128)%nat.

(** The reserved column name is used for the first column only, of type
    integer and the whole key. *)
Definition rowid_ok (cn : list Z) (ct : list coltype) (p : list Z) : Prop :=
  forall i, nth_error cn i = Some ROWID ->
    i = 0%nat /\ nth_error ct 0 = Some Int64ColType /\ p = keys_of [(0%nat, false)].

(** What a call of Update on row [r], which is there, does. *)
Definition updated {X : FloatLib} (tb : table) (kc : list (nat * bool)) (t : tree) (r : row) (cols : list Z)
    (vals : list value) (out : outcome) (t' : tree) : Prop :=
  exists rest, Permutation (rows_in t (tb_tid tb)) (r :: rest) /\ only_table (tb_tid tb) t t' /\
  (~ assigns_key kc cols -> out = ODone /\ Permutation (rows_in t' (tb_tid tb)) (assign r cols vals :: rest)) /\
  (assigns_key kc cols -> forall n, ConvertRow (tt_types (tb_tt tb)) (assign r cols vals) = Ok n ->
     ~ (exists r0, In r0 rest /\ same_key kc n r0) ->
     out = ODone /\ Permutation (rows_in t' (tb_tid tb)) (n :: rest)) /\
  (assigns_key kc cols -> forall n, ConvertRow (tt_types (tb_tt tb)) (assign r cols vals) = Ok n ->
     (exists r0, In r0 rest /\ same_key kc n r0) ->
     out = OErr ErrDuplicateKey /\ Permutation (rows_in t' (tb_tid tb)) rest) /\
  (assigns_key kc cols -> forall e, ConvertRow (tt_types (tb_tt tb)) (assign r cols vals) = Err e ->
     out = OErr e /\ Permutation (rows_in t' (tb_tid tb)) rest).
