(** A sort of rows, and rows, for the examples of the helpers for tests. *)

From Verif Require Import SpecTestutil SpecTestColumns LemmasIdent LemmasTestRows LemmasTestParse LemmasDemo LemmasDemoTyped LemmasDemoScan LemmasDemoParser.
From Coq Require Import Lia.

(** Insertion sort. *)
Fixpoint insert (r : row) (l : list row) : list row :=
  match l with
  | [] => [r]
  | s :: l' => match CompareRows s r with Some Lt => s :: insert r l' | _ => r :: l end
  end.
Definition demo_S : SortLib := {| x_sort := fold_right insert [] |}.

Lemma insert_perm r l : Permutation (r :: l) (insert r l).
Proof.
  induction l as [|s l IH]; [apply Permutation_refl|]. cbn [insert]. destruct (CompareRows s r) as [[]|]; try apply Permutation_refl.
  eapply Permutation_trans; [apply perm_swap|]. now apply perm_skip.
Qed.
Lemma sort_perm l : Permutation l (fold_right insert [] l).
Proof.
  induction l as [|r l IH]; [constructor|]. cbn. eapply Permutation_trans; [apply perm_skip, IH|apply insert_perm].
Qed.

Lemma an_order_sub l l' : incl l' l -> an_order l -> an_order l'.
Proof. intros H O r1 r2 r3 H1 H2 H3. apply O; auto. Qed.

Lemma no_less_trans l r1 r2 r3 : an_order l -> In r1 l -> In r2 l -> In r3 l -> CompareRows r2 r1 <> Some Lt -> CompareRows r3 r2 <> Some Lt -> CompareRows r3 r1 <> Some Lt.
Proof.
  intros O H1 H2 H3 A B C. destruct (CompareRows_total r1 r2) as [a E1], (CompareRows_total r2 r3) as [b E2].
  pose proof (CompareRows_antisym _ _ _ E1) as E1'. pose proof (CompareRows_antisym _ _ _ E2) as E2'.
  destruct a; [|destruct (O r3 r1 r2 H3 H1 H2) as (_ & T & _); destruct b|cbn in E1'; contradiction].
  - destruct b; [|destruct (O r3 r1 r2 H3 H1 H2) as (_ & T & _)|cbn in E2'; contradiction].
    + destruct (O r1 r2 r3 H1 H2 H3) as (_ & _ & Q). apply Q; try congruence. 
    + destruct (O r2 r3 r1 H2 H3 H1) as (_ & T2 & _). specialize (T2 E2 C). cbn in E1'. congruence.
  - cbn in E2'. rewrite (T C E1) in B. contradiction.
  - cbn in E2'. rewrite (T C E1) in B. contradiction.
  - cbn in E2'. contradiction.
Qed.

Lemma insert_sorted r l : an_order (r :: l) -> StronglySorted (fun a b => CompareRows b a <> Some Lt) l -> StronglySorted (fun a b => CompareRows b a <> Some Lt) (insert r l).
Proof.
  induction l as [|s l IH]; intros O S; [repeat constructor|]. cbn [insert]. apply StronglySorted_inv in S as [S F].
  assert (O' : an_order (r :: l)) by (revert O; apply an_order_sub; intros x [->|K]; [now left|now right; right]).
  destruct (CompareRows s r) as [c|] eqn:E; [|destruct (CompareRows_total s r); congruence].
  assert (A : c <> Lt -> StronglySorted (fun a b => CompareRows b a <> Some Lt) (r :: s :: l)).
  { intros N. rewrite Forall_forall in F. constructor; [constructor; [exact S|now apply Forall_forall]|]. apply Forall_forall. intros x [->|K]; [congruence|].
    apply (no_less_trans _ r s x O); [now left|now right; left|now right; right|congruence|now apply F]. }
  destruct c; [apply A; discriminate| |apply A; discriminate].
  constructor; [apply IH; assumption|]. apply Forall_forall. intros x K. apply (Permutation_in _ (Permutation_sym (insert_perm r l))) in K. rewrite Forall_forall in F.
  destruct K as [->|K]; [|now apply F]. rewrite (CompareRows_antisym _ _ _ E). discriminate.
Qed.

Lemma demo_S_ok : SortLib_ok demo_S.
Proof.
  intros l. split; [apply sort_perm|]. induction l as [|r l IH]; intros O; [constructor|]. cbn [x_sort demo_S fold_right] in *.
  apply insert_sorted.
  - revert O. apply an_order_sub. intros x [->|K]; [now left|]. right. apply (Permutation_in _ (Permutation_sym (sort_perm l)) K).
  - apply IH. revert O. apply an_order_sub. intros x K. now right.
Qed.

(** Three rows, in two orders. *)
Definition demo_rows1 : list row :=
  [[VInt 1; VString (str "a")]; [VInt 2; VNull]; [VInt 1; VBytes (str "b")]].
Definition demo_rows2 : list row :=
  [[VInt 2; VNull]; [VInt 1; VBytes (str "b")]; [VInt 1; VString (str "a")]].
Lemma demo_comparable : comparable (demo_rows1 ++ demo_rows2).
Proof.
  split.
  - repeat (constructor; [repeat (constructor; [split; [cbn; try exact Logic.I; unfold is_i64; lia|intros (p & E & _); discriminate]|]); constructor|]). constructor.
  - intros r1 r2 H1 H2 [|[|[|i]]]; cbn in H1, H2; repeat (destruct H1 as [<-|H1] || destruct H2 as [<-|H2] || contradiction); cbn; auto.
Qed.

(** Rows that cannot be compared. *)
Lemma nan_equal : ~ (forall (S : SortLib), SortLib_ok S -> forall rows1 rows2, RowsEqual rows1 rows2 false = Some true -> Forall2 same_row rows1 rows2).
Proof.
  intros H. specialize (H demo_S demo_S_ok [[VFloat (2 ^ 63 - 1)]] [[VFloat 0]] ltac:(vm_compute; reflexivity)).
  inversion H as [|? ? ? ? A _]; subst. inversion A as [|? ? ? ? B _]; subst. destruct B as [B|(p & q & [= <-] & [= <-] & [[_ K]|(s & t & K & _)])]; [discriminate|vm_compute in K; discriminate..].
Qed.

Lemma proper_list rows : forallb (forallb (fun v => match v with VInt i => (- 2 ^ 63 <=? i) && (i <? 2 ^ 63) | VFloat p => match sf_of_bits p with SpecFloat.S754_nan => false | _ => (0 <=? p) && (p <? 2 ^ 64) end | VNull | VBool _ => true | _ => false end)) rows = true -> Forall proper_row rows.
Proof.
  intros H. apply Forall_forall. intros r Hr. rewrite forallb_forall in H. specialize (H r Hr). apply Forall_forall. intros v Hv. rewrite forallb_forall in H. specialize (H v Hv). cbv beta in H.
  destruct v as [|b|s|s|p|i]; try discriminate.
  - split; [exact Logic.I|intros (q & E & _); discriminate].
  - split; [exact Logic.I|intros (q & E & _); discriminate].
  - split; [|intros (q & [= <-] & E); rewrite E in H; discriminate]. cbn. unfold is_u64. destruct (sf_of_bits p); try discriminate; apply andb_prop in H as [A B]; apply Z.leb_le in A; apply Z.ltb_lt in B; split; assumption.
  - split; [|intros (q & E & _); discriminate]. cbn. unfold is_i64. apply andb_prop in H as [A B]. apply Z.leb_le in A. apply Z.ltb_lt in B. split; assumption.
Qed.

Lemma mixed_equal : ~ (forall (S : SortLib), SortLib_ok S -> forall rows1 rows2, Forall proper_row (rows1 ++ rows2) ->
  RowsEqual rows1 rows2 false = Some true -> Forall2 same_row rows1 rows2).
Proof.
  intros H. specialize (H demo_S demo_S_ok [[VInt 0]] [[VFloat 0]] ltac:(apply proper_list; vm_compute; reflexivity) ltac:(vm_compute; reflexivity)).
  inversion H as [|? ? ? ? A _]; subst. inversion A as [|? ? ? ? B _]; subst. destruct B as [B|(p & q & B & _)]; discriminate.
Qed.

(** 2^53, the float of 2^53, and 2^53 + 1, which is the same float. *)
Lemma mixed_order : ~ (forall (S : SortLib), SortLib_ok S -> forall rows1 rows2, Forall proper_row (rows1 ++ rows2) ->
  Permutation rows1 rows2 -> RowsEqual rows1 rows2 true = Some true).
Proof.
  intros H. pose (a := [VInt (2 ^ 53)]). pose (f := [VFloat 4845873199050653696]). pose (b := [VInt (2 ^ 53 + 1)]).
  specialize (H demo_S demo_S_ok [b; f; a] [a; f; b] ltac:(apply proper_list; vm_compute; reflexivity)).
  assert (P : Permutation [b; f; a] [a; f; b]) by apply (Permutation_rev [b; f; a]).
  specialize (H P). vm_compute in H. discriminate.
Qed.

(** A conversion of texts to floats that knows one half. *)
Definition half : Z := 4602678819172646912.
Definition half_X : FloatLib := {|
  x_format_float := fun _ => str "0.5";
  x_parse_float := fun s => if bytes_eqb s (str "0.5") || bytes_eqb s (str ".5") then Some half else None;
  x_float_to_int := fun _ => 0
|}.
Definition demo_rows3 : list row := [[VInt 12; VString (str "a, b")]; [VNull; VBytes [zb 255; zb 10]]; [VBool true; VFloat half]].
Definition demo_rows3_text : String.string := "( 12 , 'a, b'),(Null,'\xFf0a' )  ,  (TRUE, .5) "%string.
Lemma demo_rows3_says : @rows_text half_X demo_L demo_U (runes demo_rows3_text) demo_rows3.
Proof. apply (ParseRows_iff demo_U_scan). vm_compute. reflexivity. Qed.
Lemma demo_rows3_writable : Forall (fun r => r <> [] /\ Forall (@writable half_X demo_P) r) demo_rows3.
Proof.
  assert (H : @writable half_X demo_P (VFloat half)).
  { split; [discriminate|]. split; [|split; [|reflexivity]].
    - constructor; [left; vm_compute; split; discriminate|]. constructor; [right; reflexivity|]. constructor; [left; vm_compute; split; discriminate|constructor].
    - apply parse_none. reflexivity. }
  assert (K : @writable half_X demo_P (VString (str "a, b"))).
  { exists (runes "a, b"). split; [reflexivity|]. split; [repeat constructor; unfold scalar; vm_compute; intuition discriminate|]. split; [repeat constructor; discriminate|split; discriminate]. }
  assert (J : @writable half_X demo_P (VInt 12)) by (split; [unfold is_i64|]; lia).
  unfold demo_rows3. repeat (constructor; [split; [discriminate|repeat (constructor; [first [exact H|exact K|exact J|exact Logic.I]|]); constructor]|]). constructor.
Qed.
Lemma demo_separator : @separator demo_U (str " , ").
Proof. exists [32], [32]. split; [reflexivity|]. repeat split; repeat constructor; unfold scalar; lia. Qed.

(** A string is printed as bytes are. *)
Lemma same_print : exists rows1 rows2 : list row, rows1 <> rows2 /\ Forall proper_row (rows1 ++ rows2) /\
  forall (P : PrintLib) sep, FormatRows rows1 sep = FormatRows rows2 sep.
Proof.
  exists [[VString (str "\x41")]], [[VBytes (str "A")]]. split; [discriminate|]. split.
  - repeat constructor; intros (p & E & _); discriminate.
  - intros P sep. reflexivity.
Qed.

(** Columns. *)
Definition demo_columns : String.string := "Id int Primary KEY NOT null, name VARCHAR ( 20 )primary key,x_1 Bytes "%string.
Definition demo_column_types : list coltype :=
  [{| ct_type := Int64Type; ct_size := 4; ct_fixed := false; ct_notnull := true |};
   {| ct_type := StringType; ct_size := 20; ct_fixed := false; ct_notnull := false |};
   {| ct_type := BytesType; ct_size := 4294967294; ct_fixed := false; ct_notnull := false |}].

Ltac demo_spaces := repeat (constructor; [reflexivity|]); constructor.
Ltac demo_letters := split; [discriminate|]; repeat (constructor; [first [left; reflexivity|right; left; reflexivity|right; right; left; reflexivity|right; right; right; reflexivity]|]); constructor.
Ltac demo_keyword := split; [demo_letters|]; apply means_keyword; [reflexivity|vm_compute; tauto].

Lemma demo_names_say : @names_text demo_U (runes " a,B , c") [str "a"; str "B"; str "c"].
Proof.
  apply (nm_more (runes " ") (runes "a") [] (runes "B , c") [str "B"; str "c"]); [demo_spaces|demo_letters|demo_spaces|].
  apply (nm_more [] (runes "B") (runes " ") (runes " c") [str "c"]); [demo_spaces|demo_letters|demo_spaces|].
  apply (nm_last (runes " ") (runes "c") []); [demo_spaces|demo_letters|demo_spaces].
Qed.

Lemma demo_columns_says : @columns_text demo_L demo_U 0 (runes demo_columns) [str "Id"; str "name"; str "x_1"] demo_column_types [0; 1].
Proof.
  apply (cl_more 0 (runes "Id int Primary KEY NOT null") (str "Id") (nth 0 demo_column_types Int64ColType) [0] (runes " name VARCHAR ( 20 )primary key,x_1 Bytes ")); [|apply (cl_more 1 (runes " name VARCHAR ( 20 )primary key") (str "name") (nth 1 demo_column_types Int64ColType) [1] (runes "x_1 Bytes ") _ _ []); [|apply cl_last]].
  - exists [], (runes "Id"), (runes " "), (runes "int"), (str "INT"), {| ct_type := Int64Type; ct_size := 4; ct_fixed := false; ct_notnull := false |}, [], {| ct_type := Int64Type; ct_size := 4; ct_fixed := false; ct_notnull := false |}, false, (runes " Primary KEY NOT null"), true, [].
    split; [reflexivity|]. split; [demo_spaces|]. split; [demo_letters|]. split; [reflexivity|]. split; [split; [demo_spaces|discriminate]|]. split; [demo_keyword|]. split; [vm_compute; tauto|]. split; [constructor|].
    split; [|split; [demo_spaces|reflexivity]].
    apply (fl_primary 0 true (runes " ") (runes "Primary") (runes " ") (runes "KEY") (runes " NOT null") []); [demo_spaces|discriminate|demo_keyword|split; [demo_spaces|discriminate]|demo_keyword|].
    apply (fl_notnull 0 true (runes " ") (runes "NOT") (runes " ") (runes "null") [] [] false); [demo_spaces|discriminate|demo_keyword|split; [demo_spaces|discriminate]|demo_keyword|constructor].
  - exists (runes " "), (runes "name"), (runes " "), (runes "VARCHAR"), (str "VARCHAR"), {| ct_type := StringType; ct_size := 1; ct_fixed := false; ct_notnull := false |}, (runes " ( 20 )"), {| ct_type := StringType; ct_size := 20; ct_fixed := false; ct_notnull := false |}, true, (runes "primary key"), false, [].
    split; [reflexivity|]. split; [demo_spaces|]. split; [demo_letters|]. split; [reflexivity|]. split; [split; [demo_spaces|discriminate]|]. split; [demo_keyword|]. split; [vm_compute; tauto|].
    split; [apply (le_some {| ct_type := StringType; ct_size := 1; ct_fixed := false; ct_notnull := false |} (runes " ") (runes " ") (runes "20") (runes " ") 20); [now left|demo_spaces|demo_spaces|demo_spaces|discriminate|demo_spaces|apply (it_plain (str "20")); [discriminate|repeat constructor; vm_compute; intuition discriminate]|unfold is_i64; lia]|].
    split; [|split; [demo_spaces|reflexivity]].
    apply (fl_primary 1 false [] (runes "primary") (runes " ") (runes "key") [] []); [demo_spaces|discriminate|demo_keyword|split; [demo_spaces|discriminate]|demo_keyword|constructor].
  - exists [], (runes "x_1"), (runes " "), (runes "Bytes"), (str "BYTES"), {| ct_type := BytesType; ct_size := 4294967294; ct_fixed := false; ct_notnull := false |}, [], {| ct_type := BytesType; ct_size := 4294967294; ct_fixed := false; ct_notnull := false |}, false, [], false, (runes " ").
    split; [reflexivity|]. split; [demo_spaces|]. split; [demo_letters|]. split; [reflexivity|]. split; [split; [demo_spaces|discriminate]|]. split; [demo_keyword|]. split; [vm_compute; tauto|]. split; [constructor|].
    split; [constructor|]. split; [demo_spaces|reflexivity].
Qed.

Lemma size_cut : ~ (forall (L : CaseLib) (U : RuneLib), RuneLib_scan U -> forall ds i ct,
  columns_text 0 (runes "a varchar(" ++ ds ++ runes ")") [str "a"] [ct] [] -> Forall (fun r => x_is_digit r = true) ds -> int_text (encode ds) i -> ct_size ct = i).
Proof.
  intros H. specialize (H demo_L demo_U demo_U_scan (runes "4294967297") 4294967297 {| ct_type := StringType; ct_size := 1; ct_fixed := false; ct_notnull := false |}).
  assert (T : int_text (encode (runes "4294967297")) 4294967297) by (apply (it_plain (str "4294967297")); [discriminate|repeat constructor; vm_compute; intuition discriminate]).
  enough (1 = 4294967297) by discriminate. apply H; [|demo_spaces|exact T]. apply cl_last.
  exists [], (runes "a"), (runes " "), (runes "varchar"), (str "VARCHAR"), {| ct_type := StringType; ct_size := 1; ct_fixed := false; ct_notnull := false |}, (runes "(4294967297)"), {| ct_type := StringType; ct_size := 1; ct_fixed := false; ct_notnull := false |}, true, [], false, [].
  split; [reflexivity|]. split; [demo_spaces|]. split; [demo_letters|]. split; [reflexivity|]. split; [split; [demo_spaces|discriminate]|]. split; [demo_keyword|]. split; [vm_compute; tauto|].
  split; [apply (le_some {| ct_type := StringType; ct_size := 1; ct_fixed := false; ct_notnull := false |} [] [] (runes "4294967297") [] 4294967297); [now left|demo_spaces|demo_spaces|demo_spaces|discriminate|demo_spaces|exact T|unfold is_i64; lia]|].
  split; [constructor|]. split; [demo_spaces|reflexivity].
Qed.

(** The rows of the caller do not stay as they were. *)
Lemma leaves_sorted : ~ (forall (S : SortLib), SortLib_ok S -> forall rows1 rows2 unordered, comparable (rows1 ++ rows2) -> RowsEqualLeaves rows1 rows2 unordered = (rows1, rows2)).
Proof. intros H. specialize (H demo_S demo_S_ok demo_rows1 demo_rows2 true demo_comparable). vm_compute in H. discriminate H. Qed.
