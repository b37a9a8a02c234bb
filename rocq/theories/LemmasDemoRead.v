(** A struct with an int8, used in the examples. *)

From Verif Require Import ModelTyped SpecTyped SpecRead LemmasBase LemmasKey LemmasValue LemmasIdent LemmasGob LemmasDemo LemmasDemoTable
  LemmasTyped LemmasExec LemmasSelect LemmasTypedTable LemmasDemoTyped.

Definition small_type : stype := {|
  st_name := str "small";
  st_fields := [
    {| fd_name := runes "Id"; fd_tag := str "primary"; fd_type := FTBase KInt32 |};
    {| fd_name := runes "Level"; fd_tag := []; fd_type := FTBase KInt8 |}]
|}.
Definition small_make := @exec typedinfo demo_X demo_L demo_G (demo_world demo_names) 0 (@MakeTypedInfo demo_U 21 demo_tn small_type).
Definition small_ti : typedinfo := Eval vm_compute in match fst (fst small_make) with Ok ti => ti | _ => user_ti end.
Definition small_names : list op := Eval vm_compute in map fst (snd small_make).
Lemma small_made : made_for small_ti small_type.
Proof.
  exists demo_U, demo_X, demo_L, demo_G, (demo_world demo_names), 0%nat, 21, demo_tn. do 2 eexists.
  transitivity small_make; [reflexivity|]. vm_compute. reflexivity.
Qed.

Definition small (id level : Z) : gostruct := {| gs_type := str "small"; gs_fields := [FInt KInt32 id; FInt KInt8 level] |}.
Lemma small_of id level : - 2 ^ 31 <= id < 2 ^ 31 -> - 2 ^ 7 <= level < 2 ^ 7 -> forall F : Float32Lib, of_struct small_type (small id level).
Proof. intros H1 H2 F. split; [reflexivity|]. constructor; [split; [reflexivity|exact H1]|constructor; [split; [reflexivity|exact H2]|constructor]]. Qed.

(** The table is created, and a struct stored. *)
Definition small_ops : list op :=
  demo_names ++ small_names ++
  [Begin 0; Call 0 (CCreateTable 21 (ti_tn small_ti) (ti_cols small_ti) (ti_types small_ti) (Some (ti_primary small_ti)))].
Definition small_world : world := demo_world small_ops.
(** Store a struct, set its level to an int64 with a typed update, look it up. *)
Definition small_set (n : Z) : prog (gostruct * option error) :=
  pbind (TypedTableInsert small_ti [Some (small 7 5)]) (fun _ =>
  pbind (TypedTableUpdate small_ti (Some (small 7 0)) (Some (small 7 0))
           (fun s _ => pret (s, inl (Some [(runes "Level", FInt KInt64 n)]))) tt) (fun _ =>
  @TypedTableLookup demo_F small_ti (small 7 0))).
Definition small_after (n : Z) : res (gostruct * option error) * list row :=
  let '(r, w, _) := @exec _ demo_X demo_L demo_G small_world 0 (small_set n) in
  (r, match view w 0 with Some t => rows_in t 21 | None => [] end).
Lemma small_kept : small_after 120 = (Ok (small 7 120, None), [[VInt 7; VInt 120]]).
Proof. vm_compute. reflexivity. Qed.
Lemma small_lost : small_after 300 = (Ok (small 7 44, None), [[VInt 7; VInt 300]]).
Proof. vm_compute. reflexivity. Qed.
Lemma small_refuted :
  made_for small_ti small_type /\ (forall F : Float32Lib, of_struct small_type (small 7 5)) /\
  Forall2 admits (ti_types small_ti) [VInt 7; VInt 300] /\ ~ Forall2 (fun fd v => @holds demo_F (fd_type fd) v) (st_fields small_type) [VInt 7; VInt 300] /\
  small_after 120 = (Ok (small 7 120, None), [[VInt 7; VInt 120]]) /\
  small_after 300 = (Ok (small 7 44, None), [[VInt 7; VInt 300]]).
Proof.
  split; [exact small_made|]. split; [intros F; apply small_of; lia|]. split; [|split; [|split; [exact small_kept|exact small_lost]]].
  - repeat (apply Forall2_cons || apply Forall2_nil); cbn; repeat split; try reflexivity; intros; lia.
  - intros H. inversion H as [|? ? ? ? _ H1]; subst. inversion H1 as [|? ? ? ? H2 _]; subst. cbn in H2. lia.
Qed.
