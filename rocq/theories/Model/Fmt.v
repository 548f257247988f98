(** The conversions of package fmt the reporters use, as byte strings: [%d], [%9d]
    and [%.kf], [%w.kf] for int64 and float64 values.  (fmt prints a float64 with
    strconv.AppendFloat(x, 'f', k, 64): the exact binary value, rounded to [k]
    decimals, ties to even; NaN, +Inf and -Inf by name.) *)
From Coq Require Import ZArith List String Ascii Bool.
From Flocq Require Import Core IEEE754.BinarySingleNaN IEEE754.Binary IEEE754.Bits.
From Verif.Model Require Import GoInt GoFloat.
Import ListNotations.
Open Scope string_scope.
Open Scope Z_scope.

(** the digit [z], 0 <= z < 10 *)
Definition digit (z : Z) : string := String (ascii_of_nat (48 + Z.to_nat z)) "".
(** the digits of [z >= 0], most significant first; [fuel] is the number of binary
    digits, which is enough *)
Fixpoint digits_fuel (fuel : nat) (z : Z) : string :=
  match fuel with
  | O => digit (z mod 10)
  | S f => if z <? 10 then digit z else digits_fuel f (z / 10) ++ digit (z mod 10)
  end.
Definition digits (z : Z) : string := digits_fuel (Z.to_nat (Z.log2 z)) z.
(** %d *)
Definition fmt_d (z : Z) : string := if z <? 0 then "-" ++ digits (- z) else digits z.

(** the last [k] digits of [z], with leading zeros *)
Fixpoint last_digits (k : nat) (z : Z) : string :=
  match k with O => "" | S k' => last_digits k' (z / 10) ++ digit (z mod 10) end.
(** [z] / 10^[k] with [k] decimals *)
Definition place (k : nat) (z : Z) : string :=
  match k with O => digits z | _ => digits (z / 10 ^ Z.of_nat k) ++ "." ++ last_digits k (z mod 10 ^ Z.of_nat k) end.
(** [n] / [d] rounded to an integer, ties to even (n >= 0, d > 0) *)
Definition round_even (n d : Z) : Z :=
  let q := n / d in let r := n mod d in
  if 2 * r <? d then q else if d <? 2 * r then q + 1 else if Z.even q then q else q + 1.
(** m * 2^e * 10^k rounded *)
Definition scaled (m : Z) (e : Z) (k : nat) : Z :=
  if 0 <=? e then m * 2 ^ e * 10 ^ Z.of_nat k else round_even (m * 10 ^ Z.of_nat k) (2 ^ (- e)).
Definition sign (s : bool) : string := if s then "-" else "".
(** %.[k]f *)
Definition fmt_f (k : nat) (x : f64) : string :=
  match x with
  | Binary.B754_nan _ _ _ _ _ => "NaN"
  | Binary.B754_infinity _ _ s => if s then "-Inf" else "+Inf"
  | Binary.B754_zero _ _ s => sign s ++ place k 0
  | Binary.B754_finite _ _ s m e _ => sign s ++ place k (scaled (Zpos m) e k)
  end.

(** a minimum width: blanks on the left *)
Fixpoint blanks (n : nat) : string := match n with O => "" | S n' => String " " (blanks n') end.
Definition pad (w : nat) (s : string) : string := blanks (w - String.length s) ++ s.

Definition newline : string := String (ascii_of_nat 10) "".
