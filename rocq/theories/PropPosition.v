(** Property C54: the positions of tokens, parser/scanner/scanner.go. *)

From Verif Require Import ModelScanner SpecScanner SpecPosition LemmasDemo LemmasDemoTyped LemmasDemoEngine LemmasDemoScan LemmasScanProps LemmasPosition LemmasDemoPosition.

(** C54.  A token - or what is no token and reported as an error - has the line
    and the column of its first rune, unless that is a minus or a slash. *)
Theorem C54_position : forall (X : FloatLib) (L : CaseLib) (U : RuneLib) (B : BufLib), RuneLib_scan U -> forall input before s c g r w s' c',
  tokenizing input s -> input = before ++ rest s -> rest s = g ++ r :: w -> gap g -> begins r w -> r <> 45 -> r <> 47 ->
  Scan s c = Some (s', c') -> position (before ++ g ++ [r]) (c_line c') (c_column c').
Proof. exact @token_position. Qed.
Print Assumptions C54_position.

(** In every state something was read before what is left. *)
Theorem C54_before : forall (X : FloatLib) (L : CaseLib) (U : RuneLib) (B : BufLib), RuneLib_scan U -> forall input s, tokenizing input s ->
  exists before, input = before ++ rest s.
Proof. exact @tokenizing_before. Qed.
Print Assumptions C54_before.

(** There is one such line and one such column. *)
Theorem C54_unique : forall text l k l' k', position text l k -> position text l' k' -> l = l' /\ k = k'.
Proof. exact @position_unique. Qed.
Print Assumptions C54_unique.

(** A minus, a slash and a number with a minus have the position of the rune
    behind the minus or the slash. *)
Theorem C54_sign : forall (X : FloatLib) (L : CaseLib) (U : RuneLib) (B : BufLib), RuneLib_scan U -> forall input before s c g r x w s' c',
  tokenizing input s -> input = before ++ rest s -> rest s = g ++ r :: x :: w -> gap g -> begins r (x :: w) -> r = 45 \/ r = 47 ->
  Scan s c = Some (s', c') -> position (before ++ g ++ [r; x]) (c_line c') (c_column c').
Proof. exact @sign_position. Qed.
Print Assumptions C54_sign.

(** The end of a statement and the end of the file have the position that was in
    the context before: that of an older token. *)
Theorem C54_end : forall (X : FloatLib) (L : CaseLib) (U : RuneLib) (B : BufLib), RuneLib_scan U -> forall input s c g w s' c',
  tokenizing input s -> rest s = g ++ 59 :: w -> gap g -> Scan s c = Some (s', c') -> c' = set_token c (-2).
Proof. exact @end_position. Qed.
Print Assumptions C54_end.

Theorem C54_eof : forall (X : FloatLib) (L : CaseLib) (U : RuneLib) (B : BufLib), RuneLib_scan U -> forall input s c g e s' c',
  tokenizing input s -> rest s = g ++ e -> gap g -> no_token e -> Scan s c = Some (s', c') -> c' = set_token c (-1).
Proof. exact @eof_position. Qed.
Print Assumptions C54_eof.

Definition demo_lines : String.string := "SELECT  a, -- names
  -1 /* and
 */ / b
;  ".
Example C54_case :
  demo_positions 8 (demo_scanner demo_lines) c_zero =
    [(-5, 1, 1); (-4, 1, 9); (44, 1, 10); (-8, 2, 4); (47, 3, 6); (-4, 3, 7); (-2, 3, 7); (-1, 3, 7)].
Proof. vm_compute. reflexivity. Qed.

(* the hypotheses of [C54_position] *)
Example C54_position_case :
  let s := fst (demo_behind 1 (demo_scanner demo_lines) c_zero) in
  tokenizing (runes demo_lines) s /\ runes demo_lines = runes "SELECT" ++ rest s /\
  rest s = runes "  " ++ 97 :: skipn 9 (runes demo_lines) /\ gap (runes "  ") /\ begins 97 (skipn 9 (runes demo_lines)) /\
  position (runes "SELECT" ++ runes "  " ++ [97]) 1 9.
Proof.
  split; [exact (demo_behind_tokenizing demo_lines 1)|]. split; [vm_compute; reflexivity|]. split; [vm_compute; reflexivity|].
  split; [do 2 (apply gap_space; [reflexivity|]); apply gap_nil|]. split; [repeat split; discriminate|].
  exists [], (runes "SELECT  a"). repeat split; [|now left]. vm_compute. intuition discriminate.
Qed.

(* those of [C54_sign] *)
Example C54_sign_case :
  let s := fst (demo_behind 3 (demo_scanner demo_lines) c_zero) in
  tokenizing (runes demo_lines) s /\ (exists before, runes demo_lines = before ++ rest s) /\ (exists g w, rest s = g ++ 45 :: 49 :: w /\ gap g /\ begins 45 (49 :: w)).
Proof.
  split; [exact (demo_behind_tokenizing demo_lines 3)|]. split; [exists (runes "SELECT  a,"); vm_compute; reflexivity|].
  exists (32 :: [45; 45] ++ runes " names" ++ [10] ++ runes "  "), (skipn 24 (runes demo_lines)). split; [vm_compute; reflexivity|]. split.
  - apply gap_space; [reflexivity|]. apply gap_line; [vm_compute; intuition discriminate|]. do 2 (apply gap_space; [reflexivity|]). apply gap_nil.
  - repeat split; discriminate.
Qed.

(* and of [C54_end] and [C54_eof] *)
Example C54_end_case :
  let s := fst (demo_behind 6 (demo_scanner demo_lines) c_zero) in
  tokenizing (runes demo_lines) s /\ rest s = [10] ++ 59 :: runes "  " /\ gap [10].
Proof. split; [exact (demo_behind_tokenizing demo_lines 6)|]. split; [vm_compute; reflexivity|]. apply gap_space; [reflexivity|apply gap_nil]. Qed.
Example C54_eof_case :
  let s := fst (demo_behind 7 (demo_scanner demo_lines) c_zero) in
  tokenizing (runes demo_lines) s /\ rest s = runes "  " ++ [] /\ gap (runes "  ") /\ no_token [].
Proof. split; [exact (demo_behind_tokenizing demo_lines 7)|]. split; [vm_compute; reflexivity|]. split; [do 2 (apply gap_space; [reflexivity|]); apply gap_nil|constructor]. Qed.

(** So it is not so that every token has the position of its first rune: the end
    of a statement has not, *)
Theorem C54_end_refuted : ~ positions_right (eq TEnd).
Proof. exact end_not_right. Qed.
Print Assumptions C54_end_refuted.

(** nor have the other tokens. *)
Theorem C54_sign_refuted : ~ positions_right (fun v => v <> TEnd).
Proof. exact sign_not_right. Qed.
Print Assumptions C54_sign_refuted.

Example C54_slash_wrong :
  demo_positions 2 (demo_scanner demo_slash) c_zero = [(47, 2, 0); (-4, 2, 1)].
Proof. vm_compute. reflexivity. Qed.
