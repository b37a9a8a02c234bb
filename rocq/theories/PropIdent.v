(** Properties C14 - C16: types/identifier.go. *)

From Verif Require Import SpecIdent LemmasBase LemmasIdent.

(** C14.  Whatever calls run, in whatever interleaving: two calls that have
    returned gave the same identifier exactly when the spellings mean the
    same. *)
Theorem C14_interning :
  forall (L : CaseLib) t ths s1 q1 i1 s2 q2 i2 m1 m2,
  idreach (t, ths) -> returned ths s1 q1 i1 -> returned ths s2 q2 i2 ->
  means s1 q1 m1 -> means s2 q2 m2 ->
  (i1 = i2 <-> m1 = m2).
Proof. exact @interning_lemma. Qed.
Print Assumptions C14_interning.

Theorem C14_string :
  forall (L : CaseLib) t ths s q i m,
  idreach (t, ths) -> returned ths s q i -> means s q m -> idString t i = meaning_text m.
Proof. exact @string_lemma. Qed.
Print Assumptions C14_string.

Theorem C14_stable :
  forall (L : CaseLib) c c' s q i,
  idreach c -> Relation_Operators.clos_refl_trans _ idstep c c' -> returned (snd c) s q i ->
  returned (snd c') s q i /\ idString (fst c') i = idString (fst c) i.
Proof. exact stable_lemma. Qed.
Print Assumptions C14_stable.

(** Every spelling means exactly one thing. *)
Theorem C14_meaning_total : forall (L : CaseLib) s q, exists m, means s q m.
Proof. exact @means_total. Qed.
Print Assumptions C14_meaning_total.

Theorem C14_meaning_unique :
  forall (L : CaseLib) s q m m', means s q m -> means s q m' -> m = m'.
Proof. exact @means_fun. Qed.
Print Assumptions C14_meaning_unique.

(** A call returns after at most two critical sections, whatever happens in
    between. *)
Theorem C14_call_returns :
  forall (L : CaseLib) t s q,
  exists t1 th1 t2 id, idThreadStep t (TStart s q) = (t1, th1) /\
    forall t', idThreadStep t' th1 = (t2 t', TDone s q (id t')).
Proof. exact @progress_lemma. Qed.
Print Assumptions C14_call_returns.

(** A call that runs alone is one of these executions. *)
Theorem C14_sequential :
  forall (L : CaseLib) t ths s q t' i,
  idreach (t, ths) -> ID t s q = (t', i) ->
  exists ths', idreach (t', ths') /\ returned ths' s q i /\
    (forall s0 q0 i0, returned ths s0 q0 i0 -> returned ths' s0 q0 i0).
Proof. exact @ID_sequential. Qed.
Print Assumptions C14_sequential.

(** Two goroutines miss on the same new name, both then create it. *)
Example C14_case :
  let L := CaseLib_ascii in
  exists t, idreach (t, [TDone (str "Foo") false 47; TDone (str "foo") true 47]) /\
    idString t 47 = str "foo" /\ means (str "Foo") false (Name (str "foo")).
Proof.
  intros L.
  exists {| idt_ids := (str "foo", 47) :: identifiers0;
            idt_names := (47, str "foo") :: idt_names idt_init; idt_last := 47 |}.
  split; [|split].
  - eapply idreach_step; [eapply idreach_step; [eapply idreach_step; [eapply idreach_step;
      [eapply idreach_step; [eapply idreach_step; [apply idreach_init|]|]|]|]|]|].
    + apply (idstep_call idt_init [] (str "Foo") false).
    + apply (idstep_call idt_init [TStart (str "Foo") false] (str "foo") true).
    + apply (idstep_run idt_init [] (TStart (str "Foo") false) [TStart (str "foo") true] idt_init
        (TMiss (str "Foo") false)). vm_compute. reflexivity.
    + apply (idstep_run idt_init [TMiss (str "Foo") false] (TStart (str "foo") true) [] idt_init
        (TMiss (str "foo") true)). vm_compute. reflexivity.
    + apply (idstep_run idt_init [] (TMiss (str "Foo") false) [TMiss (str "foo") true]
        {| idt_ids := (str "foo", 47) :: identifiers0;
           idt_names := (47, str "foo") :: idt_names idt_init; idt_last := 47 |}
        (TDone (str "Foo") false 47)). vm_compute. reflexivity.
    + apply (idstep_run _ [TDone (str "Foo") false 47] (TMiss (str "foo") true) []).
      vm_compute. reflexivity.
  - vm_compute. reflexivity.
  - change (str "foo") with (@x_to_lower L (firstn 128 (str "Foo"))). apply means_name. rewrite <- mem_bytes_In. vm_compute. discriminate.
Qed.

(** C15.  Unquoted spellings that differ only in the case of ASCII letters (in
    their first 128 bytes) give the same identifier. *)
Theorem C15_case_insensitive :
  forall (L : CaseLib) t ths s1 s2 i1 i2,
  CaseLib_ok L -> idreach (t, ths) ->
  returned ths s1 false i1 -> returned ths s2 false i2 ->
  same_but_case (firstn 128 s1) (firstn 128 s2) -> i1 = i2.
Proof. exact @case_insensitive_lemma. Qed.
Print Assumptions C15_case_insensitive.

(** A keyword is recognised in any case; a quoted spelling means itself
    ([means_quoted]). *)
Theorem C15_keyword_any_case :
  forall (L : CaseLib) s w,
  CaseLib_ok L -> In w (reserved_words ++ nonreserved_words) -> same_but_case s w ->
  means s false (Keyword w).
Proof. exact @keyword_any_case. Qed.
Print Assumptions C15_keyword_any_case.

(** An identifier is reserved exactly when the spelling is an unquoted reserved
    word; so a quoted spelling never is. *)
Theorem C15_reserved :
  forall (L : CaseLib) t ths s q i m,
  idreach (t, ths) -> returned ths s q i -> means s q m ->
  (IsReserved i = true <-> exists w, m = Keyword w /\ In w reserved_words).
Proof. exact @reserved_lemma. Qed.
Print Assumptions C15_reserved.

Example C15_case :
  let L := CaseLib_ascii in
  CaseLib_ok L /\
  snd (ID idt_init (str "Select") false) = -59 /\
  snd (ID idt_init (str "Select") true) = 47 /\
  same_but_case (str "sElEcT") (str "SELECT") /\ In (str "SELECT") reserved_words /\
  idString (fst (ID idt_init (str "FooBar") true)) 47 = str "FooBar".
Proof.
  cbv zeta. split; [exact CaseLib_ascii_ok|]. split; [vm_compute; reflexivity|].
  split; [vm_compute; reflexivity|]. split; [reflexivity|].
  split; [|vm_compute; reflexivity]. rewrite <- mem_bytes_In. vm_compute. reflexivity.
Qed.

(** C16.  Serialising an identifier and reading it back gives the identifier,
    and registers nothing, unless it is a keyword that is not reserved or its
    name is longer than 128 bytes. *)
Theorem C16_gob_round_trip :
  forall (L : CaseLib) t ths s q i m,
  CaseLib_ok L -> idreach (t, ths) -> returned ths s q i -> means s q m ->
  (forall w, m = Keyword w -> In w reserved_words) ->
  (length (meaning_text m) <= 128)%nat ->
  idGobDecode t (idGobEncode t i) = Some (t, i).
Proof. exact @gob_lemma. Qed.
Print Assumptions C16_gob_round_trip.

(** A keyword that is not reserved never survives. *)
Theorem C16_gob_nonreserved_refuted :
  forall (L : CaseLib) t ths s q i w t' j,
  CaseLib_ok L -> idreach (t, ths) -> returned ths s q i -> means s q (Keyword w) ->
  ~ In w reserved_words ->
  idGobDecode t (idGobEncode t i) = Some (t', j) -> j <> i.
Proof. exact @gob_nonreserved_lemma. Qed.
Print Assumptions C16_gob_nonreserved_refuted.

(** Nor does a name that grows beyond the limit when it is put in lower case,
    as with 64 times the letter U+023A, whose lower case is U+2C65. *)
Theorem C16_gob_long_refuted :
  forall L : CaseLib,
  CaseLib_ok L -> x_to_lower long_upper = long_lower -> x_to_upper long_upper = long_upper ->
  exists t ths i, idreach (t, ths) /\ returned ths long_upper false i /\
    idString t i = long_lower /\
    exists t' j, idGobDecode t (idGobEncode t i) = Some (t', j) /\ j <> i.
Proof. exact gob_long_lemma. Qed.
Print Assumptions C16_gob_long_refuted.

Example C16_case :
  let L := CaseLib_ascii in
  idGobEncode idt_init (-59) = x01 :: str "SELECT" /\
  idGobDecode idt_init (x01 :: str "SELECT") = Some (idt_init, -59) /\
  snd (ID idt_init (str "path") false) = 30 /\
  idGobEncode idt_init 30 = x00 :: str "PATH" /\
  option_map snd (idGobDecode idt_init (x00 :: str "PATH")) = Some 47 /\
  idGobDecode idt_init [x02] = None.
Proof. vm_compute. repeat split. Qed.
