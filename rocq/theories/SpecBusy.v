(** Specification of select, update and delete on a table of structs with a function
    that uses the store itself. *)

From Verif Require Export SpecTyped.

(** The program uses neither [Next] nor [Close] of the row set. *)
Inductive spares {A} (rs : nat) : prog A -> Prop :=
  | sp_ret r : spares rs (PRet r)
  | sp_call c k : c <> CNext rs -> c <> CClose rs -> (forall o n m, spares rs (k o n m)) -> spares rs (PCall c k)
  | sp_id s q k : (forall i, spares rs (k i)) -> spares rs (PID s q k)
  | sp_name i k : (forall s, spares rs (k s)) -> spares rs (PName i k).

Section Busy.
  Context {X : FloatLib} {L : CaseLib} {G : GobLib} {S : Type} (x rs : nat).

  (** The row set gives these rows and nothing else; something is done after each of
      them, until it gives an error or panics. *)
  Inductive visiting (body : world -> S -> row -> res (S * option error) -> world -> Prop)
    : world -> S -> list row -> res (S * option error) -> world -> Prop :=
    | vi_end w s w' : step w (Call x (CNext rs)) = (OErr EOF, w') -> visiting body w s [] (Ok (s, None)) w'
    | vi_next w s r l w1 s' w2 q w' :
        step w (Call x (CNext rs)) = (ORow r, w1) -> body w1 s r (Ok (s', None)) w2 -> visiting body w2 s' l q w' ->
        visiting body w s (r :: l) q w'
    | vi_error w s r l w1 s' e w2 :
        step w (Call x (CNext rs)) = (ORow r, w1) -> body w1 s r (Ok (s', Some e)) w2 ->
        visiting body w s (r :: l) (Ok (s', not_eof e)) w2
    | vi_abort w s r l w1 e w2 :
        step w (Call x (CNext rs)) = (ORow r, w1) -> body w1 s r (Err e) w2 -> visiting body w s (r :: l) (Err e) w2
    | vi_panic w s r l w1 w2 :
        step w (Call x (CNext rs)) = (ORow r, w1) -> body w1 s r Panic w2 -> visiting body w s (r :: l) Panic w2.

  (** The function is called. *)
  Definition applied (fn : S -> row -> prog (S * option error)) (w : world) (s : S) (r : row) (q : res (S * option error)) (w' : world) : Prop :=
    exists lg, exec w x (fn s r) = (q, w', lg).

  (** The function is called and the row is deleted if it says so. *)
  Inductive deleting (fn : S -> row -> prog (S * (bool + error))) (w : world) (s : S) (r : row) : res (S * option error) -> world -> Prop :=
    | db_keep s' w' lg : exec w x (fn s r) = (Ok (s', inl false), w', lg) -> deleting fn w s r (Ok (s', None)) w'
    | db_error s' e w' lg : exec w x (fn s r) = (Ok (s', inr e), w', lg) -> deleting fn w s r (Ok (s', Some e)) w'
    | db_abort e w' lg : exec w x (fn s r) = (Err e, w', lg) -> deleting fn w s r (Err e) w'
    | db_panic w' lg : exec w x (fn s r) = (Panic, w', lg) -> deleting fn w s r Panic w'
    | db_delete s' w1 lg w2 out w3 :
        exec w x (fn s r) = (Ok (s', inl true), w1, lg) -> step w1 (Call x (CCurrent rs)) = (ODone, w2) ->
        step w2 (Call x (CDelete (length (refs_of w1 x)))) = (out, w3) ->
        deleting fn w s r (match out with ODone => Ok (s', None) | OErr e => Ok (s', Some e) | _ => Panic end) w3.

  (** The function is called and the row is updated with what it says. *)
  Inductive updating (ti : typedinfo) (fn : S -> row -> prog (S * (option upstruct + error))) (w : world) (s : S) (r : row)
    : res (S * option error) -> world -> Prop :=
    | ub_keep s' w' lg : exec w x (fn s r) = (Ok (s', inl None), w', lg) -> updating ti fn w s r (Ok (s', None)) w'
    | ub_error s' e w' lg : exec w x (fn s r) = (Ok (s', inr e), w', lg) -> updating ti fn w s r (Ok (s', Some e)) w'
    | ub_abort e w' lg : exec w x (fn s r) = (Err e, w', lg) -> updating ti fn w s r (Err e) w'
    | ub_panic w' lg : exec w x (fn s r) = (Panic, w', lg) -> updating ti fn w s r Panic w'
    | ub_unknown s' u w1 lg w2 :
        exec w x (fn s r) = (Ok (s', inl (Some u)), w1, lg) -> step w1 (Call x (CCurrent rs)) = (ODone, w2) ->
        structToColsVals ti u = Panic -> updating ti fn w s r Panic w2
    | ub_update s' u w1 lg w2 cols vals out w3 :
        exec w x (fn s r) = (Ok (s', inl (Some u)), w1, lg) -> step w1 (Call x (CCurrent rs)) = (ODone, w2) ->
        structToColsVals ti u = Ok (cols, vals) ->
        step w2 (Call x (CUpdate (length (refs_of w1 x)) cols vals)) = (out, w3) ->
        updating ti fn w s r (match out with ODone => Ok (s', None) | OErr e => Ok (s', Some e) | _ => Panic end) w3.
End Busy.
