(** Specification of the store: what clients can observe. *)

From Coq Require Export Sorting.Sorted.
From Verif Require Export ModelStore SpecValue.

(** The committed contents. *)
Definition committed (w : world) : tree := nth (sh_tree (w_sh w)) (sh_heap (w_sh w)) [].

(** A transaction that was begun and not completed. *)
Definition active (w : world) (x : nat) : Prop :=
  exists tx, find_tx (w_txs w) x = Some tx /\ tx_live tx = true.

(** A transaction that was begun and completed. *)
Definition completed (w : world) (x : nat) : Prop :=
  exists tx, find_tx (w_txs w) x = Some tx /\ tx_live tx = false.

(** A name that was not used yet. *)
Definition unused (w : world) (x : nat) : Prop := find_tx (w_txs w) x = None.

(** The contents an active transaction sees. *)
Definition view (w : world) (x : nat) : option tree :=
  match find_tx (w_txs w) x with
  | Some tx =>
      if tx_live tx then
        match tx_tree tx with
        | Some h => nth_error (sh_heap (w_sh w)) h
        | None => None
        end
      else None
  | None => None
  end.

(** The tables, row sets and row references of a transaction. *)
Definition tables_of (w : world) (x : nat) : list table :=
  match find_tx (w_txs w) x with Some tx => tx_tables tx | None => [] end.
Definition rowsets_of (w : world) (x : nat) : list rowset :=
  match find_tx (w_txs w) x with Some tx => tx_rows tx | None => [] end.
Definition refs_of (w : world) (x : nat) : list rowref :=
  match find_tx (w_txs w) x with Some tx => tx_refs tx | None => [] end.

(** States that occur: any calls by any clients on a new store, with any
    identifiers known before. *)
Definition reachable {X : FloatLib} {L : CaseLib} {G : GobLib} (w : world) : Prop :=
  exists t ops outs, run (newStore t) ops = (outs, w).

(** The operation is a call on transaction [x]. *)
Definition on_tx (x : nat) (o : op) : Prop := exists c, o = Call x c.

(** The operation names transaction [x]. *)
Definition names_tx (x : nat) (o : op) : Prop := o = Begin x \/ on_tx x o.

(** Only identifiers are registered. *)
Definition is_intern (o : op) : Prop := exists s q, o = Intern s q.

(** Histories: operations with their outcomes. *)
Definition history := list (op * outcome).

(** The transaction commits in the history. *)
Fixpoint commits (x : nat) (h : history) : bool :=
  match h with
  | [] => false
  | (Call y CCommit, ODone) :: h' => (y =? x)%nat || commits x h'
  | _ :: h' => commits x h'
  end.

(** The part of a history that belongs to transactions that commit in it:
    waiting for the lock and calls on objects that do not exist are left
    out. *)
Fixpoint committed_part (h : history) : history :=
  match h with
  | [] => []
  | (o, out) :: h' =>
      match o, out with
      | Intern _ _, _ => committed_part h'
      | _, OBlocked => committed_part h'
      | _, ONoObject => committed_part h'
      | Begin x, _ => if commits x h then (o, out) :: committed_part h' else committed_part h'
      | Call x _, _ => if commits x h then (o, out) :: committed_part h' else committed_part h'
      end
  end.

(** A history without registrations of identifiers. *)
Definition without_interns (h : history) : history :=
  filter (fun e => match fst e with Intern _ _ => false | _ => true end) h.

(** Transactions one after the other. *)
Inductive serial : history -> Prop :=
  | serial_nil : serial []
  | serial_tx x body h :
      Forall (fun e => on_tx x (fst e) /\ fst e <> Call x CCommit \/ (fst e = Call x CCommit /\ snd e <> ODone)) body ->
      serial h ->
      serial ((Begin x, ODone) :: body ++ (Call x CCommit, ODone) :: h).

(** The row a row set yields at position [k]: the projection of its [k]th
    row, then always the end. *)
Definition project (cols : option (list Z)) (r : row) : option row :=
  match cols with
  | None => Some r
  | Some cs =>
      if forallb (fun c => (0 <=? c) && (c <? zlen r)) cs
      then Some (map (fun c => nth (Z.to_nat c) r VNull) cs)
      else None
  end.

Definition yields (rs : rowset) (k : nat) : outcome :=
  match nth_error (rs_items rs) k with
  | None => OErr EOF
  | Some it => match project (rs_cols rs) (it_row it) with Some r => ORow r | None => OPanic end
  end.

(** The outcomes of the calls of [Next] on row set [i] of [x]. *)
Definition next_outcomes (x i : nat) (h : history) : list outcome :=
  map snd (filter (fun e => match fst e with
                            | Call y (CNext j) => (y =? x)%nat && (j =? i)%nat
                            | _ => false
                            end) h).

(** How many row sets [x] has opened and closed. *)
Definition count_calls (f : nat -> txcall -> bool) (h : history) : nat :=
  length (filter (fun e => match e with (Call y c, ODone) => f y c | _ => false end) h).
Definition opened (x : nat) (h : history) : nat :=
  count_calls (fun y c => (y =? x)%nat && match c with CRows _ _ _ _ _ => true | _ => false end) h.
Definition closed (x : nat) (h : history) : nat :=
  count_calls (fun y c => (y =? x)%nat && match c with CClose _ => true | _ => false end) h.

(** What is assumed of encoding/gob: decoding gives what was encoded. *)
Definition GobLib_ok (G : GobLib) : Prop :=
  forall wt, x_gob_decode (x_gob_encode wt) = Some wt.
