(** engine/typedinfo.go and engine/typedtable.go: tables of structs. *)

From Verif Require Export ModelStore ModelRune.

(** The kinds of Go types of struct fields, engine/typedinfo.go:141-163: the
    predeclared types of these names, and anything else.  Types defined by
    [type T int64] and the like are not modelled. *)
Inductive kind : Set :=
  | KBool | KInt | KInt8 | KInt16 | KInt32 | KInt64 | KFloat32 | KFloat64 | KString
  | KBytes                  (* []byte *)
  | KOther.

(** The type of a field, engine/typedinfo.go:130-139: of a kind, or a pointer to
    one. *)
Inductive ftype : Set :=
  | FTBase (k : kind)
  | FTPtr (k : kind).

(** [reflect.StructField], engine/typedinfo.go:110-118: the name as runes and
    what [Tag.Get("maho")] gives. *)
Record field : Set := { fd_name : list Z; fd_tag : bytes; fd_type : ftype }.

(** A struct type: its name stands for its identity, engine/typedtable.go:60. *)
Record stype : Set := { st_name : bytes; st_fields : list field }.

(** The value of a field as package reflect shows it.  A pointer and the
    numbers know their kind; [None] is nil.  As used in
    engine/typedtable.go:14-46, 72-148. *)
Inductive fval : Set :=
  | FBool (b : bool)
  | FInt (k : kind) (i : Z)
  | FFloat (k : kind) (p : Z)       (* a float32 by the pattern of the float64 of the same value *)
  | FString (s : bytes)
  | FBytes (o : option bytes)
  | FPtr (k : kind) (o : option fval)
  | FOther.

(** A pointer to a struct that is passed as an [interface{}].  The argument
    of engine/typedtable.go:48-70, 160-178. *)
Record gostruct : Set := { gs_type : bytes; gs_fields : list fval }.

(** A struct that is passed to say what to update: names and values of the
    fields, engine/typedtable.go:160-178. *)
Definition upstruct : Set := list (list Z * fval).

(** [TypedInfo], engine/typedinfo.go:15-23. *)
Record typedinfo : Set := {
  ti_typ : stype;
  ti_tid : Z;
  ti_tn : tablename;
  ti_cols : list Z;
  ti_types : list coltype;
  ti_primary : list Z;
  ti_flds : list (list Z)
}.

(** The rounding of a float64 to a float32, [reflect.Value.SetFloat] on a
    float32 (engine/typedtable.go:130), is not modelled; the result is again
    given as a float64. *)
Class Float32Lib : Type := { x_round32 : Z -> Z }.

(** What the code of package engine does: calls of methods of a storage
    transaction, of [types.ID] and of [Identifier.String]; it ends with a
    result.  The continuation of a call gets its outcome and, if the call made
    an object, its position among the objects of the transaction, and for
    [Rows] the number of rows, which is used only to bound the loop over them
    (engine/typedtable.go:215). *)
Inductive prog (A : Type) : Type :=
  | PRet (r : res A)
  | PCall (c : txcall) (k : outcome -> nat -> nat -> prog A)
  | PID (s : bytes) (quoted : bool) (k : Z -> prog A)
  | PName (i : Z) (k : bytes -> prog A).
Arguments PRet {A}. Arguments PCall {A}. Arguments PID {A}. Arguments PName {A}.

(** Plumbing: continue with the result, whatever it is; with the value, if
    there is one.  No counterpart in the code; used for
    engine/typedtable.go:180-308. *)
Fixpoint pthen {A B} (p : prog A) (k : res A -> prog B) : prog B :=
  match p with
  | PRet r => k r
  | PCall c f => PCall c (fun o n m => pthen (f o n m) k)
  | PID s q f => PID s q (fun i => pthen (f i) k)
  | PName i f => PName i (fun s => pthen (f s) k)
  end.
Definition pbind {A B} (p : prog A) (k : A -> prog B) : prog B :=
  pthen p (fun r => match r with Ok a => k a | Err e => PRet (Err e) | Panic => PRet Panic end).
Definition pret {A} (a : A) : prog A := PRet (Ok a).
Definition pfail {A} (e : error) : prog A := PRet (Err e).
Definition ppanic {A} : prog A := PRet Panic.

Declare Scope p_scope.
Notation "'do!' x := m 'in' k" := (pbind m (fun x => k))
  (at level 200, x name, m at level 100, k at level 200) : p_scope.
Notation "m ;;; k" := (pbind m (fun _ => k)) (at level 100, right associativity) : p_scope.
Open Scope p_scope.

(** A call with [if err != nil { return err }]; the result is the position
    of the object made and the number of rows.  As in
    engine/typedtable.go:184-308. *)
Definition call (c : txcall) : prog (nat * nat) :=
  PCall c (fun o n m =>
    match o with
    | ODone => pret (n, m)
    | OErr e => pfail e
    | _ => ppanic
    end).

(** [rows.Next], engine/typedtable.go:216. *)
Definition callNext (rs : nat) : prog row :=
  PCall (CNext rs) (fun o _ _ =>
    match o with
    | ORow r => pret r
    | OErr e => pfail e
    | _ => ppanic
    end).

(** [types.ID] and [Identifier.String].  types/identifier.go:301-324. *)
Definition pID (s : bytes) (quoted : bool) : prog Z := PID s quoted pret.
Definition pName (i : Z) : prog bytes := PName i pret.

(** [strings.Split] with a separator of one byte, engine/typedinfo.go:77, 79. *)
Fixpoint split_aux (sep : byte) (s cur : bytes) : list bytes :=
  match s with
  | [] => [rev cur]
  | b :: r => if Byte.eqb b sep then rev cur :: split_aux sep r [] else split_aux sep r (b :: cur)
  end.
Definition split (sep : byte) (s : bytes) : list bytes := split_aux sep s [].

(** [validTags], engine/typedinfo.go:63-68. *)
Definition validTag (s : bytes) : option bool :=
  if bytes_eqb s (str "name") then Some true
  else if bytes_eqb s (str "notnull") then Some false
  else if bytes_eqb s (str "primary") then Some false
  else if bytes_eqb s (str "size") then Some true
  else None.

(** The loop of [fieldTags], engine/typedinfo.go:78-90; the map is a list of
    pairs with later ones first; [None] is a panic. *)
Fixpoint fieldTagsLoop (flds : list bytes) (tags : list (bytes * bytes)) : option (list (bytes * bytes)) :=
  match flds with
  | [] => Some tags
  | fld :: flds' =>
      match split x3d fld with
      | k :: kv =>
          match validTag k, kv with
          | Some true, [v] => fieldTagsLoop flds' ((k, v) :: tags)
          | Some false, [] => fieldTagsLoop flds' ((k, []) :: tags)
          | _, _ => None
          end
      | [] => None
      end
  end.

(** [fieldTags], engine/typedinfo.go:71-93. *)
Definition fieldTags (s : bytes) : option (list (bytes * bytes)) :=
  match s with
  | [] => Some []
  | _ => fieldTagsLoop (split x2c s) []
  end.

(** [tags[k]], engine/typedinfo.go:113, 121, 165, 180. *)
Fixpoint tag (tags : list (bytes * bytes)) (k : bytes) : option bytes :=
  match tags with
  | [] => None
  | (k', v) :: r => if bytes_eqb k' k then Some v else tag r k
  end.

(** [ftyp.Size()] of the integer kinds, engine/typedinfo.go:146; [int] has
    64 bits. *)
Definition int_size (k : kind) : option Z :=
  match k with
  | KInt => Some 8 | KInt8 => Some 1 | KInt16 => Some 2 | KInt32 => Some 4 | KInt64 => Some 8
  | _ => None
  end.

(** The size, engine/typedinfo.go:120-127; [None] is a panic. *)
Definition tagSize (tags : list (bytes * bytes)) : option Z :=
  match tag tags (str "size") with
  | None => Some 1
  | Some val =>
      match parse_int val with
      | Some n => if n <=? 0 then None else Some (u32 n)
      | None => None
      end
  end.

(** The column type of a field, engine/typedinfo.go:120-177; [None] is a
    panic. *)
Definition fieldType (tags : list (bytes * bytes)) (ft : ftype) : option coltype :=
  match tagSize tags with
  | None => None
  | Some size =>
      let k := match ft with FTBase k => k | FTPtr k => k end in
      let ptr := match ft with FTBase _ => false | FTPtr _ => true end in
      let nn := match tag tags (str "notnull") with Some _ => true | None => false end in
      match k with
      | KOther => None
      | KBytes =>
          if ptr then None
          else Some {| ct_type := BytesType; ct_size := size; ct_fixed := false; ct_notnull := nn |}
      | _ =>
          if nn then None
          else
            Some match k with
            | KBool => {| ct_type := BoolType; ct_size := size; ct_fixed := false; ct_notnull := negb ptr |}
            | KString => {| ct_type := StringType; ct_size := size; ct_fixed := false; ct_notnull := negb ptr |}
            | KFloat32 | KFloat64 =>
                {| ct_type := Float64Type; ct_size := 8; ct_fixed := false; ct_notnull := negb ptr |}
            | _ =>
                {| ct_type := Int64Type; ct_size := match int_size k with Some n => n | None => 8 end;
                   ct_fixed := false; ct_notnull := negb ptr |}
            end
      end
  end.

Section Typed.
  Context {U : RuneLib}.

  (** The loop of [fieldNameToColumnName], engine/typedinfo.go:39-57. *)
  Fixpoint columnNameLoop (n : list Z) (upper : bool) (buf : bytes) : bytes :=
    match n with
    | [] => buf
    | r :: n' =>
        if x_is_upper r then
          columnNameLoop n' true ((if upper then buf else buf ++ utf8_encode 95) ++ utf8_encode (x_rune_lower r))
        else columnNameLoop n' false (buf ++ utf8_encode r)
    end.

  (** The text in [fieldNameToColumnName], engine/typedinfo.go:25-59; [None] is a
      panic. *)
  Definition columnName (n : list Z) : option bytes :=
    match n with
    | [] => None
    | r :: n' => if x_is_upper r then Some (columnNameLoop n' true (utf8_encode (x_rune_lower r))) else None
    end.

  (** The loop of [MakeTypedInfo], engine/typedinfo.go:109-183: names of the
      columns, their types and the primary key. *)
  Fixpoint typedInfoLoop (idx : Z) (flds : list field) : prog (list Z * list coltype * list Z) :=
    match flds with
    | [] => pret ([], [], [])
    | fld :: flds' =>
        match fieldTags (fd_tag fld) with
        | None => ppanic
        | Some tags =>
            match match tag tags (str "name") with Some n => Some n | None => columnName (fd_name fld) end with
            | None => ppanic
            | Some name =>
                do! id := pID name true in
                match fieldType tags (fd_type fld) with
                | None => ppanic
                | Some ct =>
                    do! rest := typedInfoLoop (idx + 1) flds' in
                    let '(ids, cts, key) := rest in
                    pret (id :: ids, ct :: cts,
                          match tag tags (str "primary") with
                          | Some _ => MakeColumnKey (u32 idx) false :: key
                          | None => key
                          end)
                end
            end
        end
    end.

  (** [MakeTypedInfo], engine/typedinfo.go:95-189, for a struct or a pointer to
      one. *)
  Definition MakeTypedInfo (tid : Z) (tn : tablename) (st : stype) : prog typedinfo :=
    do! r := typedInfoLoop 0 (st_fields st) in
    let '(ids, cts, key) := r in
    pret {| ti_typ := st; ti_tid := tid; ti_tn := tn; ti_cols := ids; ti_types := cts; ti_primary := key;
            ti_flds := map fd_name (st_fields st) |}.
End Typed.

(** The name of a kind, as it occurs in what [reflect.Value.String] gives for a
    value that is not a string (engine/typedtable.go:28). *)
Definition kindName (k : kind) : bytes :=
  match k with
  | KBool => str "bool" | KInt => str "int" | KInt8 => str "int8" | KInt16 => str "int16"
  | KInt32 => str "int32" | KInt64 => str "int64" | KFloat32 => str "float32" | KFloat64 => str "float64"
  | KString => str "string" | KBytes => str "[]uint8" | KOther => []
  end.

(** [reflect.Value.String], engine/typedtable.go:28: no panic on other kinds;
    [None] stands for texts that are not modelled. *)
Definition valueString (v : fval) : option bytes :=
  let other := fun n => Some (str "<" ++ n ++ str " Value>") in
  match v with
  | FString s => Some s
  | FBool _ => other (kindName KBool)
  | FInt k _ => other (kindName k)
  | FFloat k _ => other (kindName k)
  | FBytes _ => other (kindName KBytes)
  | FPtr KOther _ => None
  | FPtr k _ => other (str "*" ++ kindName k)
  | FOther => None
  end.

(** [fieldToValue], engine/typedtable.go:14-46; a method of [reflect.Value] that
    does not fit the kind panics. *)
Definition fieldToValue (ct : coltype) (v : fval) : res value :=
  let conv := fun v : fval =>
    match ct_type ct with
    | BoolType => match v with FBool b => Ok (VBool b) | _ => Panic end
    | StringType =>
        match valueString v with
        | Some s => if ct_size ct <? zlen s then Panic else Ok (VString s)
        | None => Panic
        end
    | BytesType =>
        match v with
        | FBytes o =>
            let b := match o with Some b => b | None => [] end in
            if ct_size ct <? zlen b then Panic else Ok (VBytes b)
        | _ => Panic
        end
    | Float64Type => match v with FFloat _ p => Ok (VFloat p) | _ => Panic end
    | Int64Type => match v with FInt _ i => Ok (VInt i) | _ => Panic end
    | UnknownType => Panic
    end in
  if ct_notnull ct then conv v
  else
    match v with
    | FBytes None => Ok VNull
    | FPtr _ None => Ok VNull
    | FBytes (Some _) => match ct_type ct with BytesType => conv v | _ => Panic end
    | FPtr _ (Some v') => match ct_type ct with BytesType => conv v | _ => conv v' end
    | _ => Panic
    end.

(** The loop of [structToRow], engine/typedtable.go:65-67; a field that is
    missing panics. *)
Fixpoint fieldsToRow (cts : list coltype) (vs : list fval) : res row :=
  match cts, vs with
  | [], _ => Ok []
  | _ :: _, [] => Panic
  | ct :: cts', v :: vs' =>
      rbind (fieldToValue ct v) (fun x => rbind (fieldsToRow cts' vs') (fun r => Ok (x :: r)))
  end.

(** [structToRow], engine/typedtable.go:48-70; nil gives nil.  Arguments other
    than nil and pointers to structs, which panic, are not modelled. *)
Definition structToRow (ti : typedinfo) (st : option gostruct) : res (option row) :=
  match st with
  | None => Ok None
  | Some g =>
      if bytes_eqb (gs_type g) (st_name (ti_typ ti))
      then rbind (fieldsToRow (ti_types ti) (gs_fields g)) (fun r => Ok (Some r))
      else Panic
  end.

(** The zero value of a type, [SetZero], engine/typedtable.go:88. *)
Definition zeroOf (ft : ftype) : fval :=
  match ft with
  | FTPtr k => FPtr k None
  | FTBase KBool => FBool false
  | FTBase KString => FString []
  | FTBase KBytes => FBytes None
  | FTBase KOther => FOther
  | FTBase KFloat32 => FFloat KFloat32 0
  | FTBase KFloat64 => FFloat KFloat64 0
  | FTBase k => FInt k 0
  end.

(** [SetInt], engine/typedtable.go:139, cuts off what does not fit. *)
Definition wrapInt (k : kind) (i : Z) : Z :=
  match int_size k with
  | Some n => (i + 2 ^ (8 * n - 1)) mod 2 ^ (8 * n) - 2 ^ (8 * n - 1)
  | None => i
  end.

(** The assignment to one field in [RowToStruct], engine/typedtable.go:84-147:
    a value of another type, and a pointer of another type, panics. *)
Definition valueToField {F : Float32Lib} (ct : coltype) (ft : ftype) (v : value) : res fval :=
  match ct_notnull ct, v with
  | false, VNull => Ok (zeroOf ft)
  | nn, _ =>
      match ct_type ct with
      | BoolType =>
          match v with
          | VBool b =>
              if nn then match ft with FTBase KBool => Ok (FBool b) | _ => Panic end
              else match ft with FTPtr KBool => Ok (FPtr KBool (Some (FBool b))) | _ => Panic end
          | _ => Panic
          end
      | StringType =>
          match v with
          | VString s =>
              if nn then match ft with FTBase KString => Ok (FString s) | _ => Panic end
              else match ft with FTPtr KString => Ok (FPtr KString (Some (FString s))) | _ => Panic end
          | _ => Panic
          end
      | BytesType =>
          match v with
          | VBytes b => match ft with FTBase KBytes => Ok (FBytes (Some b)) | _ => Panic end
          | _ => Panic
          end
      | Float64Type =>
          match v with
          | VFloat p =>
              if nn then
                match ft with
                | FTBase KFloat64 => Ok (FFloat KFloat64 p)
                | FTBase KFloat32 => Ok (FFloat KFloat32 (x_round32 p))
                | _ => Panic
                end
              else match ft with FTPtr KFloat64 => Ok (FPtr KFloat64 (Some (FFloat KFloat64 p))) | _ => Panic end
          | _ => Panic
          end
      | Int64Type =>
          match v with
          | VInt i =>
              if nn then
                match ft with
                | FTBase k => match int_size k with Some _ => Ok (FInt k (wrapInt k i)) | None => Panic end
                | _ => Panic
                end
              else match ft with FTPtr KInt64 => Ok (FPtr KInt64 (Some (FInt KInt64 i))) | _ => Panic end
          | _ => Panic
          end
      | UnknownType => Panic
      end
  end.

(** The loop of [RowToStruct], engine/typedtable.go:84-147. *)
Fixpoint rowToFields {F : Float32Lib} (cts : list coltype) (flds : list field) (r : row) : res (list fval) :=
  match cts, flds, r with
  | [], _, _ => Ok []
  | ct :: cts', fd :: flds', v :: r' =>
      rbind (valueToField ct (fd_type fd) v) (fun x => rbind (rowToFields cts' flds' r') (fun l => Ok (x :: l)))
  | _, _, _ => Panic
  end.

(** [RowToStruct], engine/typedtable.go:72-148: the struct afterwards. *)
Definition RowToStruct {F : Float32Lib} (ti : typedinfo) (r : row) (g : gostruct) : res gostruct :=
  if bytes_eqb (gs_type g) (st_name (ti_typ ti))
  then rbind (rowToFields (ti_types ti) (st_fields (ti_typ ti)) r)
         (fun l => Ok {| gs_type := gs_type g; gs_fields := l |})
  else Panic.

(** [fieldNameToColumn], engine/typedtable.go:150-158; [None] is a panic. *)
Fixpoint fieldNameToColumn (idx : Z) (flds : list (list Z)) (name : list Z) : option Z :=
  match flds with
  | [] => None
  | f :: flds' => if list_eqb Z.eqb f name then Some idx else fieldNameToColumn (idx + 1) flds' name
  end.

(** [structToColsVals], engine/typedtable.go:160-178. *)
Fixpoint structToColsVals (ti : typedinfo) (u : upstruct) : res (list Z * list value) :=
  match u with
  | [] => Ok ([], [])
  | (name, v) :: u' =>
      match fieldNameToColumn 0 (ti_flds ti) name with
      | None => Panic
      | Some cdx =>
          match znth (ti_types ti) cdx with
          | None => Panic
          | Some ct =>
              rbind (fieldToValue ct v) (fun x =>
              rbind (structToColsVals ti u') (fun cv => Ok (u32 cdx :: fst cv, x :: snd cv)))
          end
      end
  end.

(** [CreateTypedTable], engine/typedtable.go:180-182; a key without columns is a
    nil slice. *)
Definition CreateTypedTable (ti : typedinfo) : prog unit :=
  call (CCreateTable (ti_tid ti) (ti_tn ti) (ti_cols ti) (ti_types ti)
          (match ti_primary ti with [] => None | k => Some k end)) ;;; pret tt.

(** [tx.OpenTable] with the attributes of a [TypedInfo],
    engine/typedtable.go:187, 203. *)
Definition openTyped (ti : typedinfo) : prog nat :=
  do! h := call (COpenTable (ti_tid ti) (ti_tn ti) (ti_cols ti) (ti_types ti) (ti_primary ti)) in
  pret (fst h).

(** The loop of [TypedTableInsert], engine/typedtable.go:192-195.  A nil row, for
    a struct that is nil, converts like an empty one (types/value.go:362-379). *)
Fixpoint structsToRows (ti : typedinfo) (l : list (option gostruct)) : res (list row) :=
  match l with
  | [] => Ok []
  | st :: l' =>
      rbind (structToRow ti st) (fun r =>
      rbind (structsToRows ti l') (fun rs => Ok (match r with Some r => r | None => [] end :: rs)))
  end.

(** [TypedTableInsert], engine/typedtable.go:184-198. *)
Definition TypedTableInsert (ti : typedinfo) (l : list (option gostruct)) : prog unit :=
  do! tbl := openTyped ti in
  do! rows := PRet (structsToRows ti l) in
  call (CInsert tbl rows) ;;; pret tt.

(** The loop of [typedTableSelect], engine/typedtable.go:215-229.  The function
    gets the row set, the row and the variables it shares with its surroundings,
    of type [S]; it gives the variables and an error, or panics. *)
Fixpoint selectLoop {S : Type} (fuel : nat) (rs : nat) (fn : S -> nat -> row -> prog (S * option error)) (s : S)
  : prog (S * option error) :=
  match fuel with
  | O => ppanic
  | Datatypes.S fuel' =>
      pthen (callNext rs) (fun r =>
        match r with
        | Panic => ppanic
        | Err EOF => pret (s, None)
        | Err e => pret (s, Some e)
        | Ok row =>
            do! q := fn s rs row in
            match snd q with
            | None => selectLoop fuel' rs fn (fst q)
            | Some EOF => pret (fst q, None)
            | Some e => pret (fst q, Some e)
            end
        end)
  end.

(** [typedTableSelect], engine/typedtable.go:200-232.  The deferred [Close] is
    executed however the loop ends; its error is ignored, but if it panics so
    does the function. *)
Definition typedTableSelect {S : Type} (ti : typedinfo) (minSt maxSt : option gostruct)
    (fn : S -> nat -> row -> prog (S * option error)) (s : S) : prog (S * option error) :=
  pthen (do! tbl := openTyped ti in
         do! mn := PRet (structToRow ti minSt) in
         do! mx := PRet (structToRow ti maxSt) in
         call (CRows tbl None mn mx None))
    (fun r =>
      match r with
      | Panic => ppanic
      | Err e => pret (s, Some e)
      | Ok (rs, n) =>
          pthen (selectLoop (Datatypes.S n) rs fn s) (fun r =>
          pthen (call (CClose rs)) (fun c =>
            match c with
            | Panic => ppanic
            | _ => PRet r
            end))
      end).

(** [TypedTableLookup], engine/typedtable.go:234-254: the struct afterwards, and
    the error. *)
Definition TypedTableLookup {F : Float32Lib} (ti : typedinfo) (st : gostruct) : prog (gostruct * option error) :=
  do! q := typedTableSelect ti (Some st) (Some st)
    (fun (s : bool * gostruct) _ row =>
      if fst s then ppanic
      else do! g := PRet (RowToStruct ti row (snd s)) in pret ((true, g), None)) (false, st) in
  let '((found, g), e) := q in
  match e with
  | Some e => pret (g, Some e)
  | None => if found then pret (g, None) else pret (g, Some EOF)
  end.

(** [TypedTableSelect], engine/typedtable.go:256-263. *)
Definition TypedTableSelect {S : Type} (ti : typedinfo) (minSt maxSt : option gostruct)
    (fn : S -> row -> prog (S * option error)) (s : S) : prog (S * option error) :=
  typedTableSelect ti minSt maxSt (fun s _ row => fn s row) s.

(** [TypedTableUpdate], engine/typedtable.go:265-286; the function says what to
    update, [None] is nil. *)
Definition TypedTableUpdate {S : Type} (ti : typedinfo) (minSt maxSt : option gostruct)
    (fn : S -> row -> prog (S * (option upstruct + error))) (s : S) : prog (S * option error) :=
  typedTableSelect ti minSt maxSt
    (fun s rs row =>
      do! q := fn s row in
      match snd q with
      | inr e => pret (fst q, Some e)
      | inl None => pret (fst q, None)
      | inl (Some u) =>
          pthen (do! rr := call (CCurrent rs) in
                 do! cv := PRet (structToColsVals ti u) in
                 call (CUpdate (fst rr) (fst cv) (snd cv)))
            (fun r => match r with Ok _ => pret (fst q, None) | Err e => pret (fst q, Some e) | Panic => ppanic end)
      end) s.

(** [TypedTableDelete], engine/typedtable.go:288-308. *)
Definition TypedTableDelete {S : Type} (ti : typedinfo) (minSt maxSt : option gostruct)
    (fn : S -> row -> prog (S * (bool + error))) (s : S) : prog (S * option error) :=
  typedTableSelect ti minSt maxSt
    (fun s rs row =>
      do! q := fn s row in
      match snd q with
      | inr e => pret (fst q, Some e)
      | inl false => pret (fst q, None)
      | inl true =>
          pthen (do! rr := call (CCurrent rs) in call (CDelete (fst rr)))
            (fun r => match r with Ok _ => pret (fst q, None) | Err e => pret (fst q, Some e) | Panic => ppanic end)
      end) s.

(** The position of the object a call made, and the number of rows.  The
    calls are those of engine/typedtable.go:180-308. *)
Definition made (w : world) (x : nat) (c : txcall) : nat * nat :=
  match find_tx (w_txs w) x with
  | None => (O, O)
  | Some tx =>
      match c with
      | COpenTable _ _ _ _ _ => (pred (length (tx_tables tx)), O)
      | CRows _ _ _ _ _ =>
          (pred (length (tx_rows tx)),
           match nth_error (tx_rows tx) (pred (length (tx_rows tx))) with
           | Some rs => length (rs_items rs)
           | None => O
           end)
      | CCurrent _ => (pred (length (tx_refs tx)), O)
      | _ => (O, O)
      end
  end.

(** Execution with storage transaction [x], while nobody else runs (others
    could only register identifiers, the lock is held): the result, the
    state afterwards, and what was done.  The lock is
    storage/basic/basic.go:24, the calls are engine/typedtable.go:180-308. *)
Fixpoint exec {A} {X : FloatLib} {L : CaseLib} {G : GobLib} (w : world) (x : nat) (p : prog A)
  : res A * world * list (op * outcome) :=
  match p with
  | PRet r => (r, w, [])
  | PCall c k =>
      let '(out, w1) := step w (Call x c) in
      let '(r, w2, h) := exec w1 x (k out (fst (made w1 x c)) (snd (made w1 x c))) in
      (r, w2, (Call x c, out) :: h)
  | PID s q k =>
      let id := snd (ID (sh_idt (w_sh w)) s q) in
      let '(out, w1) := step w (Intern s q) in
      let '(r, w2, h) := exec w1 x (k id) in
      (r, w2, (Intern s q, out) :: h)
  | PName i k => exec w x (k (idString (sh_idt (w_sh w)) i))
  end.
