(** A small catalogue, used in the examples. *)

From Verif Require Import ModelEngine SpecEngine LemmasBase LemmasKey LemmasValue LemmasIdent LemmasGob LemmasDemo LemmasDemoTable
  LemmasTyped LemmasExec LemmasSelect LemmasTypedTable LemmasDemoTyped LemmasEngineInit LemmasEngine LemmasMachine.

(** An encoding that meets what is assumed of encoding/gob. *)
Definition enc_ewt (w : ewiretype) : bytes :=
  enc_z (ewt_version w) ++ enc_list enc_bs (ewt_cols w) ++ enc_list enc_ct (ewt_types w) ++ enc_list enc_z (ewt_key w).
Definition dec_ewt (s : bytes) : option ewiretype :=
  let n := length s in
  match dec_z s with
  | None => None
  | Some (v, s1) =>
  match dec_list (dec_bs n) n s1 with
  | None => None
  | Some (cs, s2) =>
  match dec_list dec_ct n s2 with
  | None => None
  | Some (ts, s3) =>
  match dec_list dec_z n s3 with
  | None => None
  | Some (k, _) => Some {| ewt_version := v; ewt_cols := cs; ewt_types := ts; ewt_key := k |}
  end end end end.
Definition demo_E : EGobLib := {| x_egob_encode := enc_ewt; x_egob_decode := dec_ewt |}.

Lemma demo_E_ok : EGobLib_ok demo_E.
Proof.
  intros [v cs ts k]. simpl. unfold dec_ewt. remember (length (enc_ewt _)) as n eqn:En.
  assert (length cs < n /\ length ts < n /\ length k < n)%nat as (H4 & H5 & H6).
  { rewrite En. unfold enc_ewt. simpl. rewrite !app_length.
    pose proof (enc_list_length enc_bs cs). pose proof (enc_list_length enc_ct ts). pose proof (enc_list_length enc_z k). unfold enc_bs, bytes in *. lia. }
  assert (Forall (fun c => length c < n)%nat cs) as H7.
  { assert (length (enc_list enc_bs cs) <= n)%nat as Hle.
    { rewrite En. unfold enc_ewt. simpl. rewrite !app_length. lia. }
    clear -Hle. revert Hle. generalize n. induction cs as [|c cs IH]; intros m Hle; [constructor|].
    simpl in Hle. rewrite app_length in Hle. pose proof (enc_list_length enc_byte c).
    constructor; [unfold enc_bs, bytes in *; lia|]. apply IH. unfold enc_bs, bytes in *. lia. }
  clear En. unfold enc_ewt. simpl. rewrite z_ok.
  rewrite cols_ok by assumption. rewrite (list_ok enc_ct dec_ct ct_ok) by exact H5.
  rewrite <- (app_nil_r (enc_list enc_z k)). rewrite (list_ok enc_z dec_z z_ok) by exact H6. reflexivity.
Qed.

Lemma demo_U_ascii : RuneLib_ascii demo_U.
Proof. intros r _. split; reflexivity. Qed.

#[global] Existing Instances demo_X demo_L demo_G demo_F demo_E.

(** The system tables, and the store after [Init]; the names "sales", "north",
    "orders", "id", "price" and "notes" are registered. *)
Definition demo_made := @exec einfos demo_X demo_L demo_G (newStore idt_init) 0 (@makeInfos demo_U).
Definition demo_I : einfos := Eval vm_compute in
  match fst (fst demo_made) with Ok i => i | _ => {| i_sequences := user_ti; i_databases := user_ti; i_schemas := user_ti; i_tables := user_ti |} end.
Definition demo_ids : list op := Eval vm_compute in
  map (fun n => Intern (str n) false) ["sales"; "north"; "orders"; "id"; "price"; "notes"]%string.
Definition demo_init := Init demo_I {| e_w := snd (run (snd (fst demo_made)) demo_ids); e_next := 0; e_txs := [] |}.
Definition demo_s0 : eworld := Eval vm_compute in snd demo_init.

Lemma demo_booted : booted demo_I demo_s0.
Proof.
  exists demo_U, idt_init, [], (snd (fst demo_made)), (snd demo_made), demo_ids. split; [exact demo_U_ascii|]. split; [apply idreach_init|].
  split; [vm_compute; reflexivity|]. split; [repeat (constructor; [eexists _, _; reflexivity|]); constructor|]. vm_compute. reflexivity.
Qed.
Lemma demo_Init : fst demo_init = EDone.
Proof. vm_compute. reflexivity. Qed.

Lemma demo_libraries : libraries demo_X demo_G demo_L demo_F demo_E.
Proof. split; [exact FloatLib_example_ok|]. split; [exact GobLib_example_ok|]. split; [exact CaseLib_ascii_ok|]. split; [exact demo_F_ok|exact demo_E_ok]. Qed.
