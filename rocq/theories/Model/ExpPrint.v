(** exp/exp.go:19-35: the rest of the handler, which prints the variables of package expvar.

    Simplifications.  [number_g x] is strconv.FormatFloat(x, 'g', -1, 64) of a finite float,
    and [other k] the text of the variable [k] of another type (such as cmdline and memstats):
    parameters.  A response that accepts every byte.  The header is not modelled. *)
From Coq Require Import ZArith List String Ascii Bool.
From Verif.Model Require Import GoInt GoFloat GoBase World Fmt Report Json Expvar.
Import ListNotations.
Open Scope string_scope.

(** strconv.Quote, that is %q, of a string of bytes below 127.  (Other bytes are copied here,
    which is what Quote does to printable characters only.) *)
Definition hex_digit (n : nat) : ascii := ascii_of_nat (if Nat.ltb n 10 then 48 + n else 87 + n).
Definition quote_char (c : ascii) : string :=
  let n := nat_of_ascii c in
  if Nat.eqb n 34 then "\""" else if Nat.eqb n 92 then "\\"
  else if Nat.leb 32 n then String c ""
  else if Nat.eqb n 7 then "\a" else if Nat.eqb n 8 then "\b" else if Nat.eqb n 12 then "\f" else if Nat.eqb n 10 then "\n"
  else if Nat.eqb n 13 then "\r" else if Nat.eqb n 9 then "\t" else if Nat.eqb n 11 then "\v"
  else "\x" ++ String (hex_digit (n / 16)) (String (hex_digit (n mod 16)) "").
Fixpoint quote_chars (s : string) : string := match s with "" => "" | String c r => quote_char c ++ quote_chars r end.
Definition go_quote (s : string) : string := """" ++ quote_chars s ++ """".

Section Print.
Variable number_g : f64 -> string.
Variable other : string -> string.
(** the String methods of *expvar.Int and *expvar.Float *)
Definition var_text (k : string) (x : evar) : string :=
  match x with
  | EInt n => fmt_d n
  | EFloat f => if fis_finite f then number_g f else if fis_nan f then "NaN" else if flt f f_zero then "-Inf" else "+Inf"
  | EOther => other k
  end.
(** exp.go:25-32; expvar.Do visits the variables in the order of their names *)
Fixpoint print_vars (first : bool) (l : list (string * evar)) : string :=
  match l with
  | [] => ""
  | (k, x) :: r => (if first then "" else "," ++ newline) ++ go_quote k ++ ": " ++ var_text k x ++ print_vars false r
  end.
(** exp.go:24-33 *)
Definition exp_print (e : expst) : string := "{" ++ newline ++ print_vars true (sort_keys (pub e)) ++ newline ++ "}" ++ newline.
(** exp.go:19-35.  Nothing is printed when the copying panics or blocks. *)
Definition exp_handler (r : val) (o : orc) (w : world) (e : expst) : world * (expst * outcome) * string :=
  match exp_sync r o w e with
  | (w1, (e1, Done)) => (w1, (e1, Done), exp_print e1)
  | x => (x, "")
  end.
End Print.
