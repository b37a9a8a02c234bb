(** Sessions with reads that fail, for the examples of C70. *)

From Verif Require Import ModelParserReader SpecScanner SpecReader SpecFails LemmasBase LemmasDemo LemmasDemoTyped LemmasDemoEngine LemmasDemoScan LemmasDemoPrint LemmasDemoReader.

(** A text, a failing read and another text. *)
Definition demo_items (text behind : String.string) : list Z := runes text ++ -3 :: runes behind.
Definition demo_feed (text behind : String.string) : parser := newParser idt_init (demo_items text behind).

Lemma demo_all_items text behind : Forall item (demo_items text behind).
Proof. apply Forall_app. split; [|constructor; [now left|]]; eapply Forall_impl; try apply runes_pos; now right. Qed.
Lemma demo_feeding text behind : feeding (demo_feed text behind).
Proof. constructor. apply demo_all_items. Qed.

Definition demo_copied : list Z := demo_items "copy t from stdin;" " values (4);".

Lemma told_session_refuted : ~ (forall n items, Forall item items -> (length items < n)%nat -> fails items <> 0%nat -> In ShowError (fst (main_E n items))).
Proof.
  intros H. specialize (H 40%nat demo_copied (demo_all_items _ _)). assert (K : existsb (fun s => match s with ShowError => true | _ => false end) (fst (main_E 40 demo_copied)) = false) by (vm_compute; reflexivity).
  assert (K2 : In ShowError (fst (main_E 40 demo_copied))) by (apply H; vm_compute; [repeat constructor|discriminate]).
  assert (K3 : existsb (fun s => match s with ShowError => true | _ => false end) (fst (main_E 40 demo_copied)) = true) by (apply existsb_exists; exists ShowError; split; [exact K2|reflexivity]). rewrite K in K3. discriminate K3.
Qed.
