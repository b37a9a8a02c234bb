(** types/identifier.go with goroutines that are interrupted anywhere: the package
    variables are plain memory, an access takes time, and only the mutex keeps
    goroutines apart. *)

From Verif Require Export ModelIdent.

(** What a goroutine has still to do, types/identifier.go:278-324: the operations of
    the mutex (lines 306, 308, 315, 316) and the accesses to the variables.  [keywords]
    is written by nobody; looking it up is no access. *)
Inductive mcode : Set :=
| MReturn (i : Z)                          (* from ID *)
| MText (s : bytes)                        (* from String *)
| MRLock (k : mcode)
| MRUnlock (k : mcode)
| MLock (k : mcode)
| MUnlock (k : mcode)
| MFind (s : bytes) (k : option Z -> mcode)  (* identifiers[s], line 287 *)
| MLastAdd (k : mcode)                     (* lastIdentifier += 1, line 292 *)
| MLast (k : Z -> mcode)                   (* lastIdentifier, lines 293-295 *)
| MSetId (s : bytes) (i : Z) (k : mcode)   (* identifiers[s] = i, line 293 *)
| MSetName (i : Z) (s : bytes) (k : mcode) (* names[i] = s, line 294 *)
| MGetName (i : Z) (k : bytes -> mcode).   (* names[i], line 323 *)

(** [lookupID], types/identifier.go:278-299. *)
Definition lookupCode {L : CaseLib} (s : bytes) (quoted create : bool) (k : option Z -> mcode) : mcode :=
  match (if quoted then None else lookup_bytes keywords (x_to_upper s)) with
  | Some id => k (Some id)
  | None =>
      let s := if quoted then s else x_to_lower s in
      MFind s (fun o =>
        match o with
        | Some id => k (Some id)
        | None =>
            if create then
              MLastAdd
                (MLast (fun i => MSetId s i
                  (MLast (fun i => MSetName i s
                    (MLast (fun i => k (Some i)))))))
            else k None
        end)
  end.

(** [ID], types/identifier.go:301-320; the deferred Unlock runs when the result is
    known. *)
Definition IDCode {L : CaseLib} (s : bytes) (quoted : bool) : mcode :=
  let s := truncID s in
  MRLock (lookupCode s quoted false (fun o =>
    MRUnlock
      match o with
      | Some id => MReturn id
      | None =>
          MLock (lookupCode s quoted true (fun o =>
            MUnlock (MReturn (match o with Some id => id | None => 0 end))))
      end)).

(** [Identifier.String], types/identifier.go:322-324. *)
Definition StringCode (id : Z) : mcode := MGetName id MText.

(** A call of one of them (callers anywhere), what is left of it, and whether the
    access that is next has begun; types/identifier.go:301-324. *)
Inductive mcall : Set := CallID (s : bytes) (quoted : bool) | CallString (id : Z).
Record mthread : Set := { mt_call : mcall; mt_code : mcode; mt_busy : bool }.
Definition callCode {L : CaseLib} (c : mcall) : mcode :=
  match c with CallID s q => IDCode s q | CallString i => StringCode i end.

(** The variables, types/identifier.go:145-275, and the mutex (line 275): how many hold
    it for reading, and whether one holds it for writing. *)
Record mstate : Set := { ms_table : idtable; ms_readers : nat; ms_writer : bool; ms_threads : list mthread }.

(** What an access does when it is over, types/identifier.go:287-295, 323. *)
Definition performed (t : idtable) (c : mcode) : option (idtable * mcode) :=
  match c with
  | MFind s k => Some (t, k (lookup_bytes (idt_ids t) s))
  | MLastAdd k => Some ({| idt_ids := idt_ids t; idt_names := idt_names t; idt_last := idt_last t + 1 |}, k)
  | MLast k => Some (t, k (idt_last t))
  | MSetId s i k => Some ({| idt_ids := (s, i) :: idt_ids t; idt_names := idt_names t; idt_last := idt_last t |}, k)
  | MSetName i s k => Some ({| idt_ids := idt_ids t; idt_names := (i, s) :: idt_names t; idt_last := idt_last t |}, k)
  | MGetName i k => Some (t, k (idString t i))
  | _ => None
  end.

(** [sync.RWMutex] (types/identifier.go:306-316): a lock is not given while somebody
    holds it for writing, nor for writing while somebody holds it at all.  That a
    waiting writer keeps out new readers is left open: there are more executions here. *)
Definition mutexStep (readers : nat) (writer : bool) (c : mcode) : option (nat * bool * mcode) :=
  match c with
  | MRLock k => if writer then None else Some (S readers, writer, k)
  | MRUnlock k => Some (pred readers, writer, k)
  | MLock k => if writer then None else match readers with O => Some (O, true, k) | S _ => None end
  | MUnlock k => Some (readers, false, k)
  | _ => None
  end.

(** One step of one goroutine, types/identifier.go:301-324: the mutex, the beginning of
    an access, or its end. *)
Inductive mturn : idtable * nat * bool * mthread -> idtable * nat * bool * mthread -> Prop :=
| mt_mutex t r w c k r' w' k' : mutexStep r w k = Some (r', w', k') ->
    mturn (t, r, w, {| mt_call := c; mt_code := k; mt_busy := false |}) (t, r', w', {| mt_call := c; mt_code := k'; mt_busy := false |})
| mt_begin t r w c k x : performed t k = Some x ->
    mturn (t, r, w, {| mt_call := c; mt_code := k; mt_busy := false |}) (t, r, w, {| mt_call := c; mt_code := k; mt_busy := true |})
| mt_end t r w c k t' k' : performed t k = Some (t', k') ->
    mturn (t, r, w, {| mt_call := c; mt_code := k; mt_busy := true |}) (t', r, w, {| mt_call := c; mt_code := k'; mt_busy := false |}).

(** A step starts a call in a new goroutine or is one of a goroutine there is
    (types/identifier.go:301-324, callers anywhere). *)
Inductive mstep {L : CaseLib} : mstate -> mstate -> Prop :=
| ms_call t r w ths c :
    mstep {| ms_table := t; ms_readers := r; ms_writer := w; ms_threads := ths |}
      {| ms_table := t; ms_readers := r; ms_writer := w; ms_threads := ths ++ [{| mt_call := c; mt_code := callCode c; mt_busy := false |}] |}
| ms_run t r w ths1 th ths2 t' r' w' th' : mturn (t, r, w, th) (t', r', w', th') ->
    mstep {| ms_table := t; ms_readers := r; ms_writer := w; ms_threads := ths1 ++ th :: ths2 |}
      {| ms_table := t'; ms_readers := r'; ms_writer := w'; ms_threads := ths1 ++ th' :: ths2 |}.

(** Any number of steps from the state after [init], types/identifier.go:352. *)
Inductive mreach {L : CaseLib} : mstate -> Prop :=
| mreach_init : mreach {| ms_table := idt_init; ms_readers := 0; ms_writer := false; ms_threads := [] |}
| mreach_step c c' : mreach c -> mstep c c' -> mreach c'.
