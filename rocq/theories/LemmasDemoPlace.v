(** Concrete errors for the examples of C67. *)

From Verif Require Import ModelParser ModelErrorText SpecScanner SpecParser SpecPosition SpecPlace LemmasBase LemmasDemo LemmasDemoTyped LemmasDemoEngine LemmasDemoScan LemmasDemoParser LemmasScanProps LemmasPosition LemmasDemoPosition LemmasPlace.

(** The token, the line and the column of the error that the first call returns,
    and what its text begins with. *)
Definition demo_error (text : String.string) : option (Z * Z * Z * bytes) :=
  match Parse (demo_parser text), Parse_prefix (str "console") (demo_parser text) with
  | PErr p, Some b => Some (c_token (p_sctx p), c_line (p_sctx p), c_column (p_sctx p), b)
  | _, _ => None
  end.

Definition demo_where : String.string := "SELECT a FROM
  WHERE x;".
Definition demo_second : String.string := "SELECT a FROM
  b WHERE x FROM".
Definition demo_end : String.string := "SELECT a FROM
;".
Definition demo_copy : String.string := "COPY t (a) FROM STDIN DELIMITER ','
abc
d;".

Lemma demo_error_p text k l c b : demo_error text = Some (k, l, c, b) ->
  exists p', Parse (demo_parser text) = PErr p' /\ c_token (p_sctx p') = k /\ c_line (p_sctx p') = l /\ c_column (p_sctx p') = c.
Proof.
  unfold demo_error. destruct (Parse (demo_parser text)) as [| p'| | |]; try discriminate. destruct (Parse_prefix _ _); [|discriminate]. intros [= <- <- <- <-]. now exists p'.
Qed.

Lemma end_place_refuted : ~ (forall input p p', parsing input p -> Parse p = PErr p' -> c_token (p_sctx p') = -2 ->
  exists before w, input = before ++ 59 :: w /\ position (before ++ [59]) (c_line (p_sctx p')) (c_column (p_sctx p'))).
Proof.
  intros H. destruct (demo_error_p demo_end (-2) 1 1 (str "parser: console:1:1: ") ltac:(vm_compute; reflexivity)) as (p' & E & E1 & E2 & E3).
  destruct (H _ _ _ (demo_parsing demo_end) E E1) as (before & w & Hi & a & b & Hab & N & Ha & Hl & Hc). rewrite E2 in Hl. rewrite E3 in Hc.
  assert (K : count_occ Z.eq_dec a 10 = O) by lia. destruct Ha as [->|(a' & ->)]; [|rewrite count_occ_app in K; cbn in K; lia].
  destruct b as [|x [|y b]]; try (cbn in Hc; lia). destruct before as [|z before].
  - vm_compute in Hi. discriminate Hi.
  - injection Hab as _ Hab. destruct before; discriminate Hab.
Qed.

Lemma copy_place_refuted : ~ (forall input p p', parsing input p -> Parse p = PErr p' ->
  exists before text older, input = before ++ text /\ reported before text (p_sctx p') older).
Proof.
  intros H. destruct (demo_error_p demo_copy (-4) 3 0 (str "parser: console:3:0: ") ltac:(vm_compute; reflexivity)) as (p' & E & E1 & E2 & E3).
  destruct (H _ _ _ (demo_parsing demo_copy) E) as (before & text & older & Hi & [g r w Ht G Hr N1 N2 Hp|g r x w Ht G Hr Hs Hp|g w Ht G Hk _ _|g e Ht G He Hk _ _]).
  - destruct Hp as (a & b & Hab & _ & Ha & _ & Hc). rewrite E3 in Hc. destruct b as [|y b]; [|cbn in Hc; lia]. rewrite app_nil_r in Hab. destruct Ha as [->|(a' & ->)].
    + destruct before; [destruct g|]; discriminate Hab.
    + rewrite app_assoc in Hab. apply app_inj_tail in Hab. destruct Hab as [_ ->]. destruct Hr as [Hr _]. vm_compute in Hr. discriminate Hr.
  - assert (K : In r (runes demo_copy)) by (rewrite Hi, Ht; apply in_or_app; right; apply in_or_app; right; now left).
    assert (D : forallb (fun r => negb ((r =? 45) || (r =? 47))) (runes demo_copy) = true) by (vm_compute; reflexivity).
    rewrite forallb_forall in D. specialize (D r K). destruct Hs as [-> | ->]; discriminate D.
  - rewrite E1 in Hk. discriminate Hk.
  - rewrite E1 in Hk. discriminate Hk.
Qed.

Lemma bare_place_refuted : ~ (forall fn input p p', parsing input p -> Parse p = PErr p' -> Parse_prefix fn p <> Some []).
Proof.
  intros H. destruct (demo_error_p "~ SELECT" (-3) 1 1 [] ltac:(vm_compute; reflexivity)) as (p' & E & _).
  apply (H (str "console") _ _ _ (demo_parsing "~ SELECT") E). vm_compute. reflexivity.
Qed.

(** What the text of an error at the second line begins with. *)
Lemma demo_says : error_says (str "console") 2 13 (str "parser: console:2:13: ").
Proof.
  apply (es_place (str "console") 2 13 (str "2") (str "13")); [reflexivity| |].
  - apply (SpecCast.dec_pos Byte.x32 []); [split; discriminate|discriminate|constructor].
  - apply (SpecCast.dec_pos Byte.x31 [Byte.x33]); [split; discriminate|discriminate|repeat constructor; discriminate].
Qed.

Lemma demo_where_clean : tokenizing (runes demo_where) (p_scanner (demo_parser demo_where)) /\ p_unscanned (demo_parser demo_where) = O.
Proof. split; [apply demo_tokenizing|reflexivity]. Qed.

(** Where the error of the first example is. *)
Lemma demo_where_position : position (runes "SELECT a FROM
  W") 2 3.
Proof.
  exists (runes "SELECT a FROM
"), (runes "  W"). split; [reflexivity|]. split; [vm_compute; intros K; repeat (destruct K as [K|K]; [discriminate K|]); exact K|].
  split; [right; exists (runes "SELECT a FROM"); reflexivity|]. split; reflexivity.
Qed.
