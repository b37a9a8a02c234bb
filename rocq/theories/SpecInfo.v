(** The columns of a table of structs: what the fields of the struct and their
    tags say, stated without the code. *)

From Verif Require Export SpecTyped SpecCast.

(** What can be said in a tag; a value is a text without commas and equals
    signs. *)
Inductive item : Set :=
  | IName (n : bytes)
  | INotNull
  | IPrimary
  | ISize (n : bytes).

Definition item_text (i : item) : bytes :=
  match i with
  | IName n => str "name=" ++ n
  | INotNull => str "notnull"
  | IPrimary => str "primary"
  | ISize n => str "size=" ++ n
  end.

Definition item_ok (i : item) : Prop :=
  match i with
  | IName n | ISize n => ~ In x2c n /\ ~ In x3d n
  | _ => True
  end.

(** A tag is empty, or items with commas between them. *)
Inductive tag_text : bytes -> list item -> Prop :=
  | tag_none : tag_text [] []
  | tag_items i l : Forall item_ok (i :: l) ->
      tag_text (item_text i ++ flat_map (fun j => x2c :: item_text j) l) (i :: l).

(** The last item of a sort counts. *)
Definition last_of (f : item -> option bytes) (l : list item) : option bytes :=
  fold_left (fun a i => match f i with Some n => Some n | None => a end) l None.
Definition name_item (i : item) : option bytes := match i with IName n => Some n | _ => None end.
Definition size_item (i : item) : option bytes := match i with ISize n => Some n | _ => None end.

(** Code points. *)
Definition code_point (c : Z) : Prop := 0 <= c < 1114112 /\ ~ 55296 <= c <= 57343.

Section Info.
  Context {U : RuneLib}.

  (** Snake case: capitals become small, with an underscore before one that
      stands behind something else. *)
  Inductive snake : bool -> list Z -> bytes -> Prop :=
  | sn_nil u : snake u [] []
  | sn_small u r w n s : x_is_upper r = false -> utf8_char r w -> snake false n s ->
      snake u (r :: n) (w ++ s)
  | sn_capital r w n s : x_is_upper r = true -> utf8_char (x_rune_lower r) w -> snake true n s ->
      snake true (r :: n) (w ++ s)
  | sn_break r w n s : x_is_upper r = true -> utf8_char (x_rune_lower r) w -> snake true n s ->
      snake false (r :: n) (str "_" ++ w ++ s).

  (** The name of a column: as the tag says, or that of the field, which has to
      start with a capital, in snake case. *)
  Inductive column_named : list item -> list Z -> bytes -> Prop :=
  | cn_tag l n s : last_of name_item l = Some s -> column_named l n s
  | cn_field l r n s : last_of name_item l = None -> x_is_upper r = true -> snake true (r :: n) s ->
      column_named l (r :: n) s.

  (** The size: 1 if the tag has none, else a positive number, of which 32 bits
      are kept. *)
  Inductive sized : list item -> Z -> Prop :=
  | sz_none l : last_of size_item l = None -> sized l 1
  | sz_tag l t n : last_of size_item l = Some t -> int_text t n -> is_i64 n -> 0 < n -> sized l (n mod 2 ^ 32).

  (** Columns for the kinds of fields other than slices; [size] is that of the
      tag. *)
  Inductive kind_column (size : Z) : kind -> valtype -> Z -> Prop :=
  | kc_bool : kind_column size KBool BoolType size
  | kc_string : kind_column size KString StringType size
  | kc_int : kind_column size KInt Int64Type 8
  | kc_int8 : kind_column size KInt8 Int64Type 1
  | kc_int16 : kind_column size KInt16 Int64Type 2
  | kc_int32 : kind_column size KInt32 Int64Type 4
  | kc_int64 : kind_column size KInt64 Int64Type 8
  | kc_float32 : kind_column size KFloat32 Float64Type 8
  | kc_float64 : kind_column size KFloat64 Float64Type 8.

  (** The type of the column of a field: a pointer can be NULL; a slice of bytes
      can unless the tag says notnull, which it may say of slices only. *)
  Inductive column_typed : list item -> ftype -> coltype -> Prop :=
  | ctd_slice l size nn : sized l size -> (nn = true <-> In INotNull l) ->
      column_typed l (FTBase KBytes) {| ct_type := BytesType; ct_size := size; ct_fixed := false; ct_notnull := nn |}
  | ctd_value l size k vt n : sized l size -> ~ In INotNull l -> kind_column size k vt n ->
      column_typed l (FTBase k) {| ct_type := vt; ct_size := n; ct_fixed := false; ct_notnull := true |}
  | ctd_pointer l size k vt n : sized l size -> ~ In INotNull l -> kind_column size k vt n ->
      column_typed l (FTPtr k) {| ct_type := vt; ct_size := n; ct_fixed := false; ct_notnull := false |}.

  (** The column of a field: its name, its type and whether it is in the primary
      key. *)
  Definition described (f : field) (c : bytes * coltype * bool) : Prop :=
    let '(name, ct, primary) := c in
    exists l, tag_text (fd_tag f) l /\ column_named l (fd_name f) name /\ column_typed l (fd_type f) ct /\
      (primary = true <-> In IPrimary l).

  (** Field names are text, and small letters are. *)
  Definition names_ok (st : stype) : Prop :=
    (forall f, In f (st_fields st) -> Forall code_point (fd_name f)) /\
    (forall r, code_point r -> code_point (x_rune_lower r)).
End Info.

(** The positions of the columns of the primary key. *)
Fixpoint marked {A} (n : nat) (cs : list (A * bool)) : list nat :=
  match cs with
  | [] => []
  | (_, true) :: cs' => n :: marked (S n) cs'
  | (_, false) :: cs' => marked (S n) cs'
  end.

(** Names are registered one after the other. *)
Inductive registers {L : CaseLib} : idtable -> list bytes -> list Z -> idtable -> Prop :=
  | rg_nil t : registers t [] [] t
  | rg_cons t n ns i is t1 t' : ID t n true = (t1, i) -> registers t1 ns is t' ->
      registers t (n :: ns) (i :: is) t'.

(** The typed info for columns with these identifiers. *)
Definition info_of (st : stype) (tid : Z) (tn : tablename) (ids : list Z) (cs : list (bytes * coltype * bool)) : typedinfo := {|
  ti_typ := st; ti_tid := tid; ti_tn := tn; ti_cols := ids;
  ti_types := map (fun c => snd (fst c)) cs;
  ti_primary := keys_of (map (fun n => (n, false)) (marked 0 cs));
  ti_flds := map fd_name (st_fields st)
|}.
