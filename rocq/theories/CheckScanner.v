(** The tests of the scanner and of the tokens, run on the model.

    Written by tools/gotests.py from the test files of /repo. *)

From Verif Require Import ModelBase ModelIdent ModelScanner ModelParser LemmasDemo LemmasDemoTyped LemmasDemoScan LemmasDemoParser CheckBase.
Import ListNotations.
Open Scope Z_scope.

(** The first token of a text. *)
Definition first_token {A} (get : scanner -> sctx -> A) (text : list Z) : option A :=
  match Scan (scannerInit idt_init text) c_zero with Some (s, c) => Some (get s c) | None => None end.

(** [TestScan], parser/scanner/scanner_test.go:14-248. *)
Example TestScan :
  map (first_token (fun _ => c_token))
  [(runes "");
   (runes ";");
   (runes "abc");
   (runes "create");
   (runes "'create'");
   (runes "`create`");
   (runes "[create]");
   (runes """create""");
   (runes "'isn\'t go fun?'");
   (runes "12345");
   (runes "1234.5678");
   (runes ", ");
   (runes ".id");
   (runes "(123");
   (runes ")+");
   (runes "-abc");
   (runes "+abc");
   (runes "*(abc)");
   (runes "/12");
   (runes "%");
   (runes "=123");
   (runes "<123");
   (runes ">123");
   (runes "&123");
   (runes "|123");
   (runes "||");
   (runes "<<");
   (runes "<=");
   (runes "<>");
   (runes ">>");
   (runes ">=");
   (runes "==");
   (runes "!=");
   (runes "!*");
   (runes "**");
   (runes ">%");
   (runes ">-123");
   (runes "=>");
   (runes "$1");
   (runes "$25");
   (runes "$-2");
   (runes "$abc")] =
  [Some (-1); Some (-2); Some (-4); Some (-5); Some (-6); Some (-4); Some (-4); Some (-4); Some (-6); Some (-8); Some (-9); Some 44; Some 46; Some 40; Some 41; Some 45; Some 43; Some 42; Some 47; Some 37; Some 61; Some 60; Some 62; Some 38; Some 124; Some (-11); Some (-12); Some (-13); Some (-14); Some (-15); Some (-16); Some (-17); Some (-18); Some (-3); Some (-3); Some (-3); Some 62; Some (-3); Some (-10); Some (-10); Some (-3); Some (-3)].
Proof. vm_compute. reflexivity. Qed.

(** [TestScan], parser/scanner/scanner_test.go:14-248. *)
Example TestScan_strings :
  map (first_token (fun _ c => (c_token c, c_string c)))
  [(runes "'abc'");
   (runes "'abc' 123");
   (runes "'abc' 'def'");
   (runes "'abc'
'def'");
   [39; 97; 98; 99; 39; 13; 39; 100; 101; 102; 39];
   (runes "'abc'
 'def'");
   [39; 97; 98; 99; 39; 32; 13; 10; 32; 32; 13; 32; 32; 10; 32; 39; 100; 101; 102; 39];
   [39; 97; 98; 99; 39; 32; 13; 10; 32; 32; 13; 32; 32; 10; 32; 49; 50; 51];
   [39; 97; 98; 99; 39; 32; 13; 10; 32; 32; 13; 32; 32; 10];
   (runes "'abc''def' 123");
   (runes "e'abc'
 'def'");
   (runes "E'abc'
 'def'");
   (runes "e'\000abc'");
   (runes "e'\000\141bc'");
   (runes "e'\141\x62\u0063\U00000064e'")] =
  [Some (-6, (str "abc"));
   Some (-6, (str "abc"));
   Some (-6, (str "abc"));
   Some (-6, (str "abcdef"));
   Some (-6, (str "abcdef"));
   Some (-6, (str "abcdef"));
   Some (-6, (str "abcdef"));
   Some (-6, (str "abc"));
   Some (-6, (str "abc"));
   Some (-6, (str "abc'def"));
   Some (-6, (str "abcdef"));
   Some (-6, (str "abcdef"));
   Some (-6, (map zb [0; 97; 98; 99]));
   Some (-6, (map zb [0; 97; 98; 99]));
   Some (-6, (str "abcde"))].
Proof. vm_compute. reflexivity. Qed.

(** [TestScan], parser/scanner/scanner_test.go:14-248. *)
Example TestScan_bytes :
  map (first_token (fun s c => (c_token c, b_look (s_buffer s) (c_bytes c))))
  [(runes "x'6263646566'");
   (runes "x''")] =
  [Some (-7, (str "bcdef"));
   Some (-7, [])].
Proof. vm_compute. reflexivity. Qed.

(** [TestScan], parser/scanner/scanner_test.go:14-248. *)
Example TestScan_integers :
  map (first_token (fun _ c => (c_token c, c_integer c)))
  [(runes "12345");
   (runes "999");
   (runes "999 ");
   (runes "999zzz");
   (runes "-123");
   (runes "+123")] =
  [Some (-8, 12345); Some (-8, 999); Some (-8, 999); Some (-8, 999); Some (-8, (-123)); Some (-8, 123)].
Proof. vm_compute. reflexivity. Qed.

(** [TestScan], parser/scanner/scanner_test.go:14-248. *)
Example TestScan_doubles :
  map (first_token (fun _ c => (c_token c, c_float c)))
  [(runes "123.456");
   (runes "999.");
   (runes "99.9 ");
   (runes "9.99zzz");
   (runes "-12.3");
   (runes "+1.23")] =
  [Some (-9, 4638387860618067575); Some (-9, 4651998512748167168); Some (-9, 4636730254480218522); Some (-9, 4621813488089437307); Some (-9, 13846485939336616346); Some (-9, 4608218246714312622)].
Proof. vm_compute. reflexivity. Qed.

(** [TestScan], parser/scanner/scanner_test.go:14-248. *)
Example TestScan_parameters :
  map (first_token (fun _ c => (c_token c, c_integer c)))
  [(runes "$12345");
   (runes "$999");
   (runes "$999 ");
   (runes "$999zzz");
   (runes "$1")] =
  [Some (-10, 12345); Some (-10, 999); Some (-10, 999); Some (-10, 999); Some (-10, 1)].
Proof. vm_compute. reflexivity. Qed.

(** [TestScan], parser/scanner/scanner_test.go:14-248. *)
Example TestScan_source :
  demo_scans 5 (scannerInit idt_init (runes "
-- start with a comment
create -- reserved keyword
""create"" /* identifier */
'create' /* string

*/
abcd -- identifier
")) =
  [ShownName (-5) (str "CREATE"); ShownName (-4) (str "create"); ShownText (str "create"); ShownName (-4) (str "abcd"); Shown (-1)].
Proof. vm_compute. reflexivity. Qed.

(** [TestIsOpRune], parser/token/token_test.go:7-29. *)
Example TestIsOpRune :
  filter (fun r => IsOpRune r) (map Z.of_nat (seq 0 2000)) = [33; 37; 38; 42; 43; 45; 47; 60; 61; 62; 124] /\
  forallb (fun o => let '(a, b, _) := o in IsOpRune a && IsOpRune b) operators = true.
Proof. vm_compute. repeat split. Qed.

(** [scan] and [unscan] of the parser, one token after another; then with three
    tokens un-read before each. *)
Fixpoint scan_all (n : nat) (p : parser) : list Z :=
  match n with
  | O => []
  | S n' => match scanRune p with Some (p, _) => rune_of (p_tok p) :: scan_all n' p | None => [] end
  end.
Fixpoint scan_more (n : nat) (p : parser) : option (parser * list Z) :=
  match n with
  | O => Some (p, [])
  | S n' =>
      match scanRune p with
      | Some (p, _) => match scan_more n' p with Some (q, l) => Some (q, rune_of (p_tok p) :: l) | None => None end
      | None => None
      end
  end.
Fixpoint unscan_many (n : nat) (p : parser) : option parser :=
  match n with O => Some p | S n' => match unscan p with Some p => unscan_many n' p | None => None end end.
Fixpoint scan_back (n i : nat) (p : parser) : list (list Z) :=
  match n with
  | O => []
  | S n' =>
      match (if (lookBackAmount <=? i)%nat
             then match unscan_many lookBackAmount p with
                  | Some p => scan_more lookBackAmount p
                  | None => None
                  end
             else Some (p, [])) with
      | Some (p, l) => match scanRune p with Some (p, _) => (l ++ [rune_of (p_tok p)]) :: scan_back n' (S i) p | None => [] end
      | None => []
      end
  end.

(** [TestParserScan], parser/parser_test.go:28-61. *)
Example TestParserScan :
  scan_all 12 (newParser idt_init (runes "create foobar * 123 (,) 'string' ""identifier"" ; 456.789")) =
  [(-5); (-4); 42; (-8); 40; 44; 41; (-6); (-4); (-2); (-9); (-1)].
Proof. vm_compute. reflexivity. Qed.

(** [TestParserScan], parser/parser_test.go:28-61. *)
Example TestParserScan_back :
  scan_back 12 0 (newParser idt_init (runes "create foobar * 123 (,) 'string' ""identifier"" ; 456.789")) =
  [[(-5)];
   [(-4)];
   [42];
   [(-5); (-4); 42; (-8)];
   [(-4); 42; (-8); 40];
   [42; (-8); 40; 44];
   [(-8); 40; 44; 41];
   [40; 44; 41; (-6)];
   [44; 41; (-6); (-4)];
   [41; (-6); (-4); (-2)];
   [(-6); (-4); (-2); (-9)];
   [(-4); (-2); (-9); (-1)]].
Proof. vm_compute. reflexivity. Qed.
