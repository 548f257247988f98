(** The notation of strings in encoding/json (Marshal, as called by json.go:11-13, escapes HTML),
    for bytes below 128.  (Other bytes are copied here, which is what encoding/json does to valid
    UTF-8 except U+2028 and U+2029; newer versions of Go write backspace and form feed as \b and
    \f, with the same meaning.) *)
From Coq Require Import List String Ascii Bool.
From Verif.Model Require Import ExpPrint.
Import ListNotations.
Open Scope string_scope.

Definition json_char (c : ascii) : string :=
  let n := nat_of_ascii c in
  if Nat.eqb n 34 then "\""" else if Nat.eqb n 92 then "\\"
  else if Nat.eqb n 10 then "\n" else if Nat.eqb n 13 then "\r" else if Nat.eqb n 9 then "\t"
  else if Nat.ltb n 32 || existsb (Nat.eqb n) [60; 62; 38]%nat then "\u00" ++ String (hex_digit (Nat.div n 16)) (String (hex_digit (Nat.modulo n 16)) "")
  else String c "".
Fixpoint json_chars (s : string) : string := match s with "" => "" | String c r => json_char c ++ json_chars r end.
Definition json_quote (s : string) : string := """" ++ json_chars s ++ """".
