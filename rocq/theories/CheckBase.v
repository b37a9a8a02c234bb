(** What the tests of /repo use: floats as they are read and printed, and tables of names.

    Written by tools/gotests.py from the test files of /repo. *)

From Verif Require Import ModelBase ModelValue ModelIdent ModelStore ModelParser ModelPrint ModelTestutil LemmasDemo LemmasDemoTyped LemmasDemoScan.
Import ListNotations.
Open Scope Z_scope.

(** The floats of the tests, as Go reads and prints them. *)
Definition float_texts : list (bytes * Z) :=
  [((str ".123"), 4593527504729830064);
   ((str ".456"), 4601886185638229705);
   ((str "0.0"), 0);
   ((str "0.12"), 4593311331947716280);
   ((str "0.123"), 4593527504729830064);
   ((str "1.1"), 4607632778762754458);
   ((str "1.23"), 4608218246714312622);
   ((str "1.234"), 4608236261112822104);
   ((str "10.10"), 4621875412584313651);
   ((str "12.3"), 4623113902481840538);
   ((str "12.45"), 4623198344974853734);
   ((str "123."), 4638355772470722560);
   ((str "123.4"), 4638383919968393626);
   ((str "123.456"), 4638387860618067575);
   ((str "1234.5678"), 4653144502051863213);
   ((str "2.2"), 4612136378390124954);
   ((str "2.34"), 4612451630364040888);
   ((str "23.45"), 4627293805885993779);
   ((str "3.3"), 4614613358185178726);
   ((str "4.4"), 4616639978017495450);
   ((str "456.789"), 4646743533262653620);
   ((str "6.6"), 4619116957812549222);
   ((str "8.8"), 4621143577644865946);
   ((str "9.9"), 4621762822593629389);
   ((str "9.99"), 4621813488089437307);
   ((str "987.654"), 4651898712276737196);
   ((str "99.9"), 4636730254480218522);
   ((str "999."), 4651998512748167168);
   ((str "999.0"), 4651998512748167168);
   ((str "999.9"), 4652006429231887155)].
Definition float_prints : list (Z * bytes) :=
  [(0, (str "0"));
   (4593311331947716280, (str "0.12"));
   (4593527504729830064, (str "0.123"));
   (4601886185638229705, (str "0.456"));
   (4607632778762754458, (str "1.1"));
   (4608218246714312622, (str "1.23"));
   (4608236261112822104, (str "1.234"));
   (4612136378390124954, (str "2.2"));
   (4612451630364040888, (str "2.34"));
   (4614613358185178726, (str "3.3"));
   (4616639978017495450, (str "4.4"));
   (4619116957812549222, (str "6.6"));
   (4621143577644865946, (str "8.8"));
   (4621762822593629389, (str "9.9"));
   (4621813488089437307, (str "9.99"));
   (4621875412584313651, (str "10.1"));
   (4623113902481840538, (str "12.3"));
   (4623198344974853734, (str "12.45"));
   (4627293805885993779, (str "23.45"));
   (4636730254480218522, (str "99.9"));
   (4638355772470722560, (str "123"));
   (4638383919968393626, (str "123.4"));
   (4638387860618067575, (str "123.456"));
   (4646743533262653620, (str "456.789"));
   (4651898712276737196, (str "987.654"));
   (4651998512748167168, (str "999"));
   (4652006429231887155, (str "999.9"));
   (4653144502051863213, (str "1234.5678"));
   (13831608297967597912, (str "-1.234"));
   (13845134859448405197, (str "-9.9"));
   (13875378466086662963, (str "-999.9"))].

Definition print_of (p : Z) : bytes := match lookup_Z float_prints p with Some s => s | None => str "?" end.

#[global] Instance go_X : FloatLib := {|
  x_format_float := print_of;
  x_parse_float := lookup_bytes float_texts;
  x_float_to_int := fun _ => 0
|}.
#[global] Instance go_P : PrintLib := {| x_print_float := print_of |}.
#[global] Existing Instances demo_L demo_U demo_G.

(** Insertion sort with [CompareRows]. *)
Fixpoint insert_row (r : row) (l : list row) : list row :=
  match l with
  | [] => [r]
  | r' :: l' => match CompareRows r r' with Some Gt => r' :: insert_row r l' | _ => r :: l end
  end.
#[global] Instance go_S : SortLib := {| x_sort := fold_right insert_row [] |}.

(** A table with some names registered. *)
Definition table_of (l : list (bytes * bool)) : idtable := fold_left (fun t n => fst (ID t (fst n) (snd n))) l idt_init.

(** The identifiers that are constants of package types, by their names. *)
Definition constant (s : bytes) : Z :=
  match lookup_bytes keywords s with
  | Some id => id
  | None => match lookup_bytes identifiers0 (x_to_lower s) with Some id => id | None => 0 end
  end.
