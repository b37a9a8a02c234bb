(** What the console is to do with its input. *)

From Verif Require Export ModelMain SpecParser SpecTokens.

Section Main.
  Context {X : FloatLib} {L : CaseLib} {U : RuneLib} {B : BufLib} {P : PrintLib}.

  (** The line for a result: the text of the statement, the panic of its [String]
      method as package fmt reports it, or what stands for nil. *)
  Definition line (T : idtable) (s : option stmt) : bytes :=
    match option_map (stmtString T) s with
    | Some (PText t) => t
    | Some (PPanic w) => str "%!v(PANIC=String method: " ++ w ++ str ")"
    | None => str "<nil>"
    end.

  (** The transcript of the results of [Parse]: a prompt in front of each. *)
  Fixpoint transcript (l : list parsed) : list shown :=
    match l with
    | [] => []
    | PStmt s p :: l' => ShowPrompt :: ShowLine (line (s_ids (p_scanner p)) s) :: transcript l'
    | PErr _ :: l' => ShowPrompt :: ShowError :: transcript l'
    | _ :: l' => ShowPrompt :: transcript l'
    end.

  (** A text of statements, each of at least one token, and nothing but white space
      and comments behind the last one. *)
  Inductive program : list Z -> list (list tokval) -> Prop :=
  | pr_end g e : gap g -> no_token e -> program (g ++ e) []
  | pr_more text vs left l : vs <> [] -> statement_text text vs left -> program left l -> program text (vs :: l).

  (** Tables of identifiers, each one an extension of the one before. *)
  Fixpoint tables (t : idtable) (l : list idtable) : Prop :=
    match l with
    | [] => True
    | T :: l' => real T /\ later t T /\ tables T l'
    end.

  (** The statements that the texts say, each with the names known then. *)
  Inductive says_each : list idtable -> list (list tokval) -> list stmt -> Prop :=
  | se_none : says_each [] [] []
  | se_more T Ts vs vss s ss : text_says T vs s -> says_each Ts vss ss -> says_each (T :: Ts) (vs :: vss) (s :: ss).

  (** One line for each. *)
  Fixpoint echo (Ts : list idtable) (ss : list stmt) : list shown :=
    match Ts, ss with
    | T :: Ts', s :: ss' => ShowPrompt :: ShowLine (line T (Some s)) :: echo Ts' ss'
    | _, _ => []
    end.
End Main.
