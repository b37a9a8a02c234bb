(** Property C68: scanning what a reader delivers that may fail,
    parser/scanner/scanner.go. *)

From Verif Require Import ModelScanner ModelReader SpecScanner SpecReader LemmasDemo LemmasDemoTyped LemmasDemoEngine LemmasDemoScan LemmasReader LemmasDemoReader.

(** C68.  Whatever the reader delivers, and however often it fails, a token is
    returned. *)
Theorem C68_total : forall (X : FloatLib) (L : CaseLib) (U : RuneLib) (B : BufLib), RuneLib_scan U -> forall s c,
  reading s -> exists s' c', ScanE s c = Some (s', c').
Proof. exact @read_total. Qed.
Print Assumptions C68_total.

(** Where no read fails, this is the scanner of the other properties. *)
Theorem C68_same : forall (X : FloatLib) (L : CaseLib) (U : RuneLib) (B : BufLib), RuneLib_scan U -> forall s c,
  reading s -> Forall (fun r => 0 <= r) (s_in s) -> ScanE s c = Scan s c.
Proof. exact @read_same. Qed.
Print Assumptions C68_same.

(** Otherwise: a token that ends before the read that fails is the one it is
    whatever would have been read instead.  If it does not, nothing is read
    behind the failure, and the token is an error with the error of the reader;
    or it is a constant, an operator or a single letter as at the end of the text,
    and the error is forgotten; or it is the error of a [$] at the end of the text. *)
Theorem C68_failed : forall (X : FloatLib) (L : CaseLib) (U : RuneLib) (B : BufLib), RuneLib_scan U -> forall s c u m s' c',
  reading s -> s_in s = u ++ tError :: m -> Forall (fun r => 0 <= r) u -> ScanE s c = Some (s', c') ->
  (exists v, s_in s' = v ++ tError :: m /\ forall t, Forall (fun r => 0 <= r) t -> Scan (with_in s (u ++ t)) c = Some (with_in s' (v ++ t), c')) \/
  (s_in s' = m /\ (told s' c' \/ untold s c u s' c' \/ mistold s c u c')).
Proof. exact @read_failed. Qed.
Print Assumptions C68_failed.

Example C68_case :
  reading (demo_failing "a b12" "c 1") /\
  demo_reads 4 (demo_failing "a b12" "c 1") =
    [(ShownName (-4) (str "a"), 7, None); (ShownError (Some SRead), 3, Some SRead); (ShownName (-4) (str "c"), 1, None); (ShownInteger 1, 0, None)] /\
  demo_reads 3 (demo_failing "'ab'" "'c'") =
    [(ShownText (str "ab"), 3, Some SRead); (ShownError (Some SUnexpectedCharacter), 3, Some SUnexpectedCharacter); (ShownText (str "c"), 0, None)] /\
  demo_reads 3 (demo_failing "x" "= 1") =
    [(ShownName (-4) (str "x"), 3, Some SRead); (ShownError (Some SUnexpectedCharacter), 3, Some SUnexpectedCharacter); (Shown 61, 1, None)] /\
  demo_reads 2 (demo_failing "$" "1") =
    [(ShownError (Some SExpectedParameter), 1, Some SExpectedParameter); (ShownInteger 1, 0, None)] /\
  demo_reads 2 (demo_failing "-" "1") =
    [(ShownError (Some SRead), 1, Some SRead); (ShownInteger 1, 0, None)].
Proof. split; [apply demo_reading|]. vm_compute. repeat split. Qed.

(** A read that fails between tokens is always told. *)
Theorem C68_between : forall (X : FloatLib) (L : CaseLib) (U : RuneLib) (B : BufLib) s c m,
  s_unread s = false -> s_in s = tError :: m -> exists s' c', ScanE s c = Some (s', c') /\ told s' c' /\ s_in s' = m.
Proof. exact @read_again. Qed.
Print Assumptions C68_between.

(** Behind an error that was forgotten there is another one, of a rune 0 that is
    not in the text. *)
Theorem C68_behind : forall (X : FloatLib) (L : CaseLib) (U : RuneLib) (B : BufLib), RuneLib_scan U -> forall s c,
  s_unread s = true -> s_read s = 0 ->
  exists s' c', ScanE s c = Some (s', c') /\ c_token c' = tError /\ c_error c' = Some SUnexpectedCharacter /\ s_in s' = s_in s.
Proof. exact @read_behind. Qed.
Print Assumptions C68_behind.

Example C68_between_case :
  s_unread (demo_failing "" "1") = false /\ s_in (demo_failing "" "1") = tError :: runes "1" /\
  demo_reads 2 (demo_failing "" "1") = [(ShownError (Some SRead), 1, Some SRead); (ShownInteger 1, 0, None)].
Proof. vm_compute. repeat split. Qed.

(** What one would expect and is not so: that an error of the reader is told. *)
Theorem C68_told_refuted : ~ (forall s c u m s' c',
  reading s -> s_in s = u ++ -3 :: m -> Forall (fun r => 0 <= r) u -> ScanE s c = Some (s', c') -> s_in s' = m -> told s' c').
Proof. exact told_refuted. Qed.
Print Assumptions C68_told_refuted.
