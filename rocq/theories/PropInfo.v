(** C64: the columns made for a struct are those its fields and tags describe. *)

From Verif Require Import ModelTyped SpecInfo SpecStore LemmasInfo LemmasDemo LemmasDemoTyped LemmasDemoInfo.

(** [MakeTypedInfo] succeeds just if every field is described, and then gives
    the described names, types and primary key, in order. *)
Theorem C64_info :
  forall (U : RuneLib) (L : CaseLib) t tid tn st ti t',
  names_ok st -> zlen (st_fields st) <= 2 ^ 32 ->
  (qrun t (MakeTypedInfo tid tn st) = (Ok ti, t') <->
   exists cs ids, Forall2 described (st_fields st) cs /\
     registers t (map (fun c => fst (fst c)) cs) ids t' /\ ti = info_of st tid tn ids cs).
Proof. exact @info_spec. Qed.
Print Assumptions C64_info.

(** Otherwise it panics; it gives no error. *)
Theorem C64_panics :
  forall (U : RuneLib) (L : CaseLib) t tid tn st, names_ok st ->
  (fst (qrun t (MakeTypedInfo tid tn st)) = Panic <-> ~ exists cs, Forall2 described (st_fields st) cs) /\
  forall e, fst (qrun t (MakeTypedInfo tid tn st)) <> Err e.
Proof. exact @info_panics. Qed.
Print Assumptions C64_panics.

(** With a store around it nothing else happens: identifiers are registered, no
    transaction is touched. *)
Theorem C64_exec :
  forall (X : FloatLib) (L : CaseLib) (G : GobLib) (U : RuneLib) w x tid tn st r w' h,
  exec w x (MakeTypedInfo tid tn st) = (r, w', h) ->
  qrun (sh_idt (w_sh w)) (MakeTypedInfo tid tn st) = (r, sh_idt (w_sh w')) /\ Forall is_intern (map fst h).
Proof. exact @info_exec. Qed.
Print Assumptions C64_exec.

(** A tag is read in one way only. *)
Theorem C64_tag : forall s l l', tag_text s l -> tag_text s l' -> l = l'.
Proof. exact @tag_text_unique. Qed.
Print Assumptions C64_tag.

(** Runes are written in UTF-8; what is no code point as U+FFFD. *)
Theorem C64_encode : forall c w, code_point c -> (utf8_char c w <-> w = utf8_encode c).
Proof. exact encode_char. Qed.
Print Assumptions C64_encode.

Theorem C64_encode_other : forall c, ~ code_point c -> utf8_char 65533 (utf8_encode c).
Proof. exact encode_other. Qed.
Print Assumptions C64_encode_other.

(** Different fields can get the same column: UserID and UserId. *)
Theorem C64_distinct_refuted :
  exists (U : RuneLib) (L : CaseLib) t tid tn st ti t',
    names_ok st /\ NoDup (map fd_name (st_fields st)) /\ CaseLib_ok L /\
    qrun t (MakeTypedInfo tid tn st) = (Ok ti, t') /\ ~ NoDup (ti_cols ti).
Proof. exact twins_witness. Qed.
Print Assumptions C64_distinct_refuted.

(** A size of 2^32 becomes 0. *)
Theorem C64_size_refuted :
  exists (U : RuneLib) (L : CaseLib) t tid tn st ti t' ct,
    names_ok st /\ CaseLib_ok L /\ map fd_tag (st_fields st) = [str "size=4294967296"] /\
    qrun t (MakeTypedInfo tid tn st) = (Ok ti, t') /\ ti_types ti = [ct] /\ ct_type ct = StringType /\ ct_size ct = 0.
Proof. exact huge_witness. Qed.
Print Assumptions C64_size_refuted.

Example C64_case :
  @names_ok demo_U user_type /\ zlen (st_fields user_type) <= 2 ^ 32 /\
  Forall2 (@described demo_U) (st_fields user_type) user_columns /\
  (exists ids t', @registers demo_L demo_ids [str "user_id"; str "name"; str "blob"; str "score"] ids t') /\
  @names_ok demo_U wrong_type /\ (~ exists cs, Forall2 (@described demo_U) (st_fields wrong_type) cs) /\
  tag_text (str "size=4,name=blob") [ISize (str "4"); IName (str "blob")] /\
  code_point 233 /\ utf8_char 233 [xc3; xa9] /\ ~ code_point 55296.
Proof.
  split; [now apply demo_names_ok|]. split; [vm_compute; discriminate|]. split; [exact user_described|].
  split; [apply registers_total|]. split; [now apply demo_names_ok|]. split; [exact wrong_undescribed|].
  split; [apply (tag_items (ISize (str "4")) [IName (str "blob")]); repeat constructor; cbn; intuition discriminate|].
  assert (code_point 233) as H by (unfold code_point; split; [split; vm_compute; congruence|intros [E _]; now apply E]).
  split; [exact H|]. split; [now apply encode_char|].
  intros [_ E]. apply E. split; vm_compute; congruence.
Qed.
