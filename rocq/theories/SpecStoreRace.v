(** Goroutines that use a store: races, and calls that act at one point in time. *)

From Verif Require Export ModelStoreRace.

(** The variable [tree] of the store, and the trees. *)
Inductive memory : Set := StoreTree | TreeAt (h : nat).

(** The access that has begun and is not over, and whether it writes.  ([Clone] writes
    to the tree that is copied, too.)  There is none through a nil pointer. *)
Definition accesses (th : sthread) : option (memory * bool) :=
  match th with
  | ThBegin true => Some (StoreTree, false)
  | ThCall tx _ code true =>
      match code with
      | SStoreTree _ => if tx_live tx then Some (StoreTree, false) else None
      | SSetStoreTree _ => if tx_live tx then Some (StoreTree, true) else None
      | SClone h _ => if tx_live tx then Some (TreeAt h, true) else None
      | SRead _ => match tx_tree tx with Some h => Some (TreeAt h, false) | None => None end
      | SWrite _ _ => match tx_tree tx with Some h => Some (TreeAt h, true) | None => None end
      | _ => None
      end
  | _ => None
  end.

(** The transaction is about to release the mutex. *)
Definition unlocks (th : sthread) : Prop :=
  match th with ThCall tx _ (SUnlock _) _ => tx_live tx = true | _ => False end.

(** The transaction is open. *)
Definition open_ (th : sthread) : Prop :=
  match th with ThWait => False | ThBegin _ => True | ThIdle tx | ThCall tx _ _ _ => tx_live tx = true end.

(** ** Calls that act at one point in time *)

(** What happened, with the points at which calls act. *)
Inductive happening : Set := Happens (e : event) | Acts (o : op) (out : outcome).

Fixpoint seen (l : list happening) : list event :=
  match l with [] => [] | Happens e :: r => e :: seen r | Acts _ _ :: r => seen r end.
Fixpoint acted (l : list happening) : list (op * outcome) :=
  match l with [] => [] | Happens _ :: r => acted r | Acts o out :: r => (o, out) :: acted r end.

(** Whose: the transaction, none for the registration of an identifier. *)
Definition whose (o : op) : option nat := match o with Begin x | Call x _ => Some x | Intern _ _ => None end.
Definition whose_happening (h : happening) : option nat :=
  match h with Happens (EStart o) | Happens (EEnd o _) | Acts o _ => whose o end.
Definition same_key (a b : option nat) : bool :=
  match a, b with Some x, Some y => (x =? y)%nat | None, None => true | _, _ => false end.
Definition of_key (k : option nat) (l : list happening) : list happening := filter (fun h => same_key (whose_happening h) k) l.

(** Every call acts once, after it started and before it returns, with the outcome it
    returns; the calls of one transaction do not overlap. *)
Inductive phase : Set := Between | Started (o : op) | Acted (o : op) (out : outcome).
Inductive orderly : list happening -> phase -> Prop :=
| or_none : orderly [] Between
| or_start l o : orderly l Between -> orderly (l ++ [Happens (EStart o)]) (Started o)
| or_act l o out : orderly l (Started o) -> orderly (l ++ [Acts o out]) (Acted o out)
| or_end l o out : orderly l (Acted o out) -> orderly (l ++ [Happens (EEnd o out)]) Between.

(** No call is under way. *)
Definition at_rest (st : sstate) : Prop :=
  forall x th, find_th (ss_threads st) x = Some th -> exists tx, th = ThIdle tx.
(** The transaction between calls. *)
Definition idle_tx (st : sstate) (x : nat) : option txstate :=
  match find_th (ss_threads st) x with Some (ThIdle tx) => Some tx | _ => None end.

(** ** Calls that come to an end *)

(** Has the mutex or does not need it: is not between calls and does not wait. *)
Definition in_call (th : sthread) : Prop := match th with ThBegin _ | ThCall _ _ _ _ => True | _ => False end.

(** A goroutine goes on, from one point of a call to another. *)
Definition goes_on {X : FloatLib} {L : CaseLib} {G : GobLib} (th th' : sthread) : Prop :=
  in_call th /\ in_call th' /\ th <> th' /\
  exists st st' x, sstep st st' /\ find_th (ss_threads st) x = Some th /\ find_th (ss_threads st') x = Some th'.
