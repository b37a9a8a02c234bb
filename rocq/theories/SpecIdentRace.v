(** Races between goroutines. *)

From Verif Require Export ModelIdentRace SpecIdent.

(** The variables of the package. *)
Inductive variable_ : Set := Identifiers | Names | LastIdentifier.

(** The access that has begun and is not over, and whether it writes. *)
Definition accessing (th : mthread) : option (variable_ * bool) :=
  if mt_busy th then
    match mt_code th with
    | MFind _ _ => Some (Identifiers, false)
    | MSetId _ _ _ => Some (Identifiers, true)
    | MLastAdd _ => Some (LastIdentifier, true)
    | MLast _ => Some (LastIdentifier, false)
    | MSetName _ _ _ => Some (Names, true)
    | MGetName _ _ => Some (Names, false)
    | _ => None
    end
  else None.

(** Two goroutines access the same variable at the same time, the first writes. *)
Definition races (st : mstate) (i j : nat) (v : variable_) : Prop :=
  i <> j /\ exists a b w, nth_error (ms_threads st) i = Some a /\ nth_error (ms_threads st) j = Some b /\
    accessing a = Some (v, true) /\ accessing b = Some (v, w).

(** A call has returned. *)
Definition gave (st : mstate) (s : bytes) (quoted : bool) (i : Z) : Prop :=
  exists b, In {| mt_call := CallID s quoted; mt_code := MReturn i; mt_busy := b |} (ms_threads st).
Definition wrote (st : mstate) (n : nat) (i : Z) (s : bytes) : Prop :=
  exists b, nth_error (ms_threads st) n = Some {| mt_call := CallString i; mt_code := MText s; mt_busy := b |}.
Definition over (th : mthread) : Prop := match mt_code th with MReturn _ | MText _ => True | _ => False end.

(** It is over after at most this many steps (an access is two), whatever it reads. *)
Inductive within : nat -> mcode -> Prop :=
| wn_return n i : within n (MReturn i)
| wn_text n s : within n (MText s)
| wn_rlock n k : within n k -> within (S n) (MRLock k)
| wn_runlock n k : within n k -> within (S n) (MRUnlock k)
| wn_lock n k : within n k -> within (S n) (MLock k)
| wn_unlock n k : within n k -> within (S n) (MUnlock k)
| wn_find n s k : (forall o, within n (k o)) -> within (S (S n)) (MFind s k)
| wn_add n k : within n k -> within (S (S n)) (MLastAdd k)
| wn_last n k : (forall i, within n (k i)) -> within (S (S n)) (MLast k)
| wn_id n s i k : within n k -> within (S (S n)) (MSetId s i k)
| wn_name n i s k : within n k -> within (S (S n)) (MSetName i s k)
| wn_get n i k : (forall s, within n (k s)) -> within (S (S n)) (MGetName i k).

(** Later. *)
Inductive msteps {L : CaseLib} : mstate -> mstate -> Prop :=
| msteps_none st : msteps st st
| msteps_more st st' st2 : msteps st st' -> mstep st' st2 -> msteps st st2.
