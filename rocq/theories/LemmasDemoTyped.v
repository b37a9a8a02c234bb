(** A small table of structs, used in the examples. *)

From Verif Require Import ModelTyped SpecTyped SpecBusy LemmasBase LemmasKey LemmasValue LemmasIdent LemmasGob LemmasDemo LemmasDemoTable
  LemmasTyped LemmasExec LemmasSelect LemmasTypedTable.

Definition demo_U : RuneLib := {|
  x_is_upper r := (65 <=? r) && (r <=? 90);
  x_rune_lower r := if (65 <=? r) && (r <=? 90) then r + 32 else r;
  x_is_letter r := ((65 <=? r) && (r <=? 90)) || ((97 <=? r) && (r <=? 122));
  x_is_digit r := (48 <=? r) && (r <=? 57);
  x_is_space r := (r =? 32) || ((9 <=? r) && (r <=? 13))
|}.

(** Cut off what does not fit in a float32's fraction. *)
Definition demo_F : Float32Lib := {| x_round32 p := p / 2 ^ 29 * 2 ^ 29 |}.
Lemma demo_F_ok : Float32Lib_ok demo_F.
Proof.
  intros p Hp. cbn [x_round32 demo_F]. unfold is_u64 in *. change (2 ^ 29) with 536870912. change (2 ^ 64) with 18446744073709551616 in *. split.
  - pose proof (Z.div_mod p 536870912 ltac:(lia)) as D. pose proof (Z.mod_pos_bound p 536870912 ltac:(lia)).
    pose proof (Z.div_pos p 536870912). lia.
  - now rewrite Z.div_mul by lia.
Qed.

(** A struct with an integer as primary key, a text and bytes that can be
    missing, and a float32. *)
Definition runes (s : String.string) : list Z := map bz (str s).
Definition user_type : stype := {|
  st_name := str "user";
  st_fields := [
    {| fd_name := runes "UserId"; fd_tag := str "primary"; fd_type := FTBase KInt32 |};
    {| fd_name := runes "Name"; fd_tag := str "size=10"; fd_type := FTPtr KString |};
    {| fd_name := runes "Data"; fd_tag := str "size=4,name=blob"; fd_type := FTBase KBytes |};
    {| fd_name := runes "Score"; fd_tag := []; fd_type := FTBase KFloat32 |}]
|}.
Definition user_make := @exec typedinfo demo_X demo_L demo_G (demo_world demo_names) 0 (@MakeTypedInfo demo_U 21 demo_tn user_type).
Definition user_ti : typedinfo := Eval vm_compute in
  match fst (fst user_make) with
  | Ok ti => ti
  | _ => {| ti_typ := user_type; ti_tid := 0; ti_tn := demo_tn; ti_cols := []; ti_types := []; ti_primary := []; ti_flds := [] |}
  end.
Definition user_names : list op := Eval vm_compute in map fst (snd user_make).
Definition user_kc : list (nat * bool) := [(0%nat, false)].

Lemma user_made : made_for user_ti user_type.
Proof.
  exists demo_U, demo_X, demo_L, demo_G, (demo_world demo_names), 0%nat, 21, demo_tn. do 2 eexists.
  transitivity user_make; [reflexivity|]. vm_compute. reflexivity.
Qed.

Definition user (i : Z) (name : option bytes) (data : option bytes) (score : Z) : gostruct :=
  {| gs_type := str "user";
     gs_fields := [FInt KInt32 i; FPtr KString (option_map FString name); FBytes data; FFloat KFloat32 score] |}.
(** 1.5 *)
Definition one_half : Z := 4609434218613702656.
Definition user1 := user 1 (Some (str "ann")) None one_half.
Definition user2 := user 2 None (Some (str "xy")) 0.
Definition user3 := user 3 (Some (str "bob")) (Some []) one_half.

Lemma user_of i name data score : - 2 ^ 31 <= i < 2 ^ 31 -> is_u64 score -> score mod 2 ^ 29 = 0 ->
  @of_struct demo_F user_type (user i name data score).
Proof.
  intros Hi Hs Hm. split; [reflexivity|]. cbn [user gs_fields st_fields user_type].
  constructor; [split; [reflexivity|exact Hi]|]. constructor; [|constructor; [reflexivity|constructor; [|constructor]]].
  - exists (option_map FString name). split; [reflexivity|]. intros v H. destruct name as [s|]; [|discriminate]. injection H as <-. reflexivity.
  - split; [reflexivity|]. split; [exact Hs|]. right. split; [reflexivity|]. exists score. split; [exact Hs|].
    cbn [x_round32 demo_F]. pose proof (Z.div_mod score (2 ^ 29) ltac:(lia)) as D. lia.
Qed.
Ltac user_of := apply user_of; [lia|unfold is_u64; vm_compute; split; congruence|reflexivity].
Lemma user1_of : @of_struct demo_F user_type user1. Proof. user_of. Qed.
Lemma user2_of : @of_struct demo_F user_type user2. Proof. user_of. Qed.
Lemma user3_of : @of_struct demo_F user_type user3. Proof. user_of. Qed.

(** Transaction 0 creates the table and stores two structs; transaction 1 is
    active. *)
Definition user_row (g : gostruct) : row := match structToRow user_ti (Some g) with Ok (Some r) => r | _ => [] end.
Definition user_ops : list op :=
  demo_names ++ user_names ++
  [Begin 0; Call 0 (CCreateTable 21 (ti_tn user_ti) (ti_cols user_ti) (ti_types user_ti) (Some (ti_primary user_ti)));
   Call 0 (openCall user_ti); Call 0 (CInsert 0 [user_row user2; user_row user1]); Call 0 CCommit; Begin 1].
Definition user_world : world := demo_world user_ops.
Definition user_hist : history := demo_hist user_ops.
Definition user_tree : tree := match view user_world 1 with Some t => t | None => [] end.

Lemma user_open : @can_open demo_X demo_L demo_G user_hist user_world 1 user_tree user_ti user_kc.
Proof.
  constructor.
  - apply demo_orderly; vm_compute; reflexivity.
  - vm_compute. reflexivity.
  - vm_compute. split; congruence.
  - vm_compute. reflexivity.
  - reflexivity.
  - repeat constructor; simpl; lia.
Qed.
Lemma user_rows : rows_in user_tree 21 = [user_row user1; user_row user2].
Proof. vm_compute. reflexivity. Qed.
Lemma user2_bound : @bound_for demo_F user_ti user_type (Some user2) (Some (user_row user2)).
Proof. split; [intros g [= <-]; exact user2_of|reflexivity]. Qed.
Definition user_after {A} (p : prog A) : res A * list row :=
  let '(r, w, _) := @exec A demo_X demo_L demo_G user_world 1 p in
  (r, match view w 1 with Some t => rows_in t 21 | None => [] end).

(** A pointer that cannot be read. *)
Definition narrow_type : stype := {|
  st_name := str "narrow"; st_fields := [{| fd_name := runes "Count"; fd_tag := []; fd_type := FTPtr KInt32 |}] |}.
Definition narrow : gostruct := {| gs_type := str "narrow"; gs_fields := [FPtr KInt32 (Some (FInt KInt32 7))] |}.
Lemma narrow_case : exists ti, made_for ti narrow_type /\ @of_struct demo_F narrow_type narrow /\
  structToRow ti (Some narrow) = Ok (Some [VInt 7]) /\ @RowToStruct demo_F ti [VInt 7] narrow = Panic.
Proof.
  exists (match @exec _ demo_X demo_L demo_G (demo_world demo_names) 0 (@MakeTypedInfo demo_U 22 demo_tn narrow_type) with
          | (Ok ti, _, _) => ti | _ => user_ti end).
  split; [|split; [|split; vm_compute; reflexivity]].
  - exists demo_U, demo_X, demo_L, demo_G, (demo_world demo_names), 0%nat, 22, demo_tn. do 2 eexists. vm_compute. reflexivity.
  - split; [reflexivity|]. constructor; [|constructor]. cbn. exists (Some (FInt KInt32 7)). split; [reflexivity|].
    intros v [= <-]. split; [reflexivity|]. cbn. lia.
Qed.

(** A function that inserts a row, or deletes all rows, and counts. *)
Definition user_grows (n : nat) (_ : row) : prog (nat * option error) :=
  do! _ := TypedTableInsert user_ti [Some (user (7 + Z.of_nat n) None None 0)] in pret (S n, None).
Definition user_clears (n : nat) (_ : row) : prog (nat * (bool + error)) :=
  do! q := TypedTableDelete user_ti None None (fun m _ => pret (S m, inl true)) O in pret ((n + fst q)%nat, inl true).
Lemma user_grows_spares s r : spares (length (rowsets_of user_world 1)) (user_grows s r).
Proof.
  unfold user_grows, TypedTableInsert, openTyped, call. cbn [pbind pthen]. constructor; [discriminate..|]. intros o n m.
  destruct o; cbn [pbind pthen pret pfail ppanic fst]; try (apply sp_ret). unfold structsToRows.
  destruct (structToRow user_ti (Some (user (7 + Z.of_nat s) None None 0))) as [q|e|]; cbn [rbind pthen]; [|constructor..]. constructor; [discriminate..|].
  intros o' n' m'. destruct o'; cbn [pthen pret pfail ppanic]; constructor.
Qed.
