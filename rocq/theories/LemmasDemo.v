(** A small table, used in the examples. *)

From Verif Require Import ModelStore SpecStore LemmasBase LemmasValue LemmasIdent LemmasGob.

Definition demo_X : FloatLib := FloatLib_example.
Definition demo_L : CaseLib := CaseLib_ascii.
Definition demo_G : GobLib := GobLib_example.

(** Names 47 to 51. *)
Definition demo_names : list op :=
  [Intern (str "db") false; Intern (str "main") false; Intern (str "t") false;
   Intern (str "a") false; Intern (str "b") false].
Definition demo_tn : tablename := {| tn_database := 47; tn_schema := 48; tn_table := 49 |}.
Definition demo_cols : list Z := [50; 51].
Definition demo_types : list coltype :=
  [{| ct_type := Int64Type; ct_size := 8; ct_fixed := false; ct_notnull := true |};
   {| ct_type := StringType; ct_size := 10; ct_fixed := false; ct_notnull := false |}].
Definition demo_key : list Z := [1].
Definition demo_create : txcall := CCreateTable 20 demo_tn demo_cols demo_types (Some demo_key).
Definition demo_open : txcall := COpenTable 20 demo_tn demo_cols demo_types demo_key.
Definition demo_rows : list row :=
  [[VInt 3; VString (str "three")]; [VInt 1; VString (str "one")]; [VInt 2; VNull]].
Definition all_rows : txcall := CRows 0 None None None None.

(** Transaction 0 creates the table and puts rows into it. *)
Definition demo_setup : list op :=
  demo_names ++ [Begin 0; Call 0 demo_create; Call 0 demo_open; Call 0 (CInsert 0 demo_rows); Call 0 CCommit].

Definition demo_run (ops : list op) : list outcome * world :=
  @run demo_X demo_L demo_G (newStore idt_init) ops.
Definition demo_world (ops : list op) : world := snd (demo_run ops).
Definition demo_outs (ops : list op) : list outcome := fst (demo_run ops).

Lemma demo_reachable ops : @reachable demo_X demo_L demo_G (demo_world ops).
Proof.
  exists idt_init, ops, (demo_outs ops). unfold demo_world, demo_outs, demo_run.
  now destruct (run (newStore idt_init) ops).
Qed.
