(** Runes: Go's packages unicode and unicode/utf8 as far as they are used. *)

From Verif Require Export ModelBase.

(** [utf8.RuneError], U+FFFD, the replacement written for numbers that are not
    code points (engine/typedinfo.go:36, parser/scanner/scanner.go:385). *)
Definition RuneError : Z := 65533.

(** The UTF-8 encoding of a rune, as appended by [WriteRune]
    (engine/typedinfo.go:36, 49, 52; parser/scanner/scanner.go). *)
Definition utf8_encode (r : Z) : bytes :=
  let r := if (r <? 0) || (1114111 <? r) || ((55296 <=? r) && (r <=? 57343)) then RuneError else r in
  if r <? 128 then [zb r]
  else if r <? 2048 then [zb (192 + r / 64); zb (128 + r mod 64)]
  else if r <? 65536 then [zb (224 + r / 4096); zb (128 + r / 64 mod 64); zb (128 + r mod 64)]
  else [zb (240 + r / 262144); zb (128 + r / 4096 mod 64); zb (128 + r / 64 mod 64); zb (128 + r mod 64)].

(** The tables of package unicode are not modelled: [unicode.IsUpper] and
    [unicode.ToLower] (engine/typedinfo.go:31, 36, 48, 52), [unicode.IsLetter],
    [unicode.IsDigit] and [unicode.IsSpace] (parser/scanner/scanner.go). *)
Class RuneLib : Type := {
  x_is_upper : Z -> bool;
  x_rune_lower : Z -> Z;
  x_is_letter : Z -> bool;
  x_is_digit : Z -> bool;
  x_is_space : Z -> bool
}.
