(** time.Duration.String (Go's time/time.go), which log.go:39 uses: a duration in the
    notation "1h2m3.5s", "1.5ms", "0s".  The code fills a buffer from the right; here the
    text grows to the left. *)
From Coq Require Import ZArith List String Ascii Bool.
From Verif.Model Require Import GoInt GoFloat Fmt.
Local Open Scope string_scope.
Local Open Scope Z_scope.

(** fmtFrac: [prec] digits of [v] after a decimal point; trailing zeros are omitted, and the
    point with them.  Returns the text and what is left of [v]. *)
Fixpoint frac_loop (prec : nat) (v : Z) (print : bool) (acc : string) : string * Z :=
  match prec with
  | O => (if print then "." ++ acc else acc, v)
  | S k =>
    let d := v mod 10 in
    let print' := print || negb (d =? 0) in
    frac_loop k (v / 10) print' (if print' then digit d ++ acc else acc)
  end.
Definition fmt_frac (v : Z) (prec : nat) (acc : string) : string * Z :=
  let '(s, v') := frac_loop prec v false "" in (s ++ acc, v').
(** the sign "µ", two bytes *)
Definition micro : string := String (ascii_of_nat 194) (String (ascii_of_nat 181) "").
(** Duration.String of [u] nanoseconds, u >= 0 *)
Definition duration_abs (u : Z) : string :=
  if u <? 10 ^ 9 then
    if u =? 0 then "0s"
    else
      let '(s, u') := if u <? 10 ^ 3 then fmt_frac u 0 "ns" else if u <? 10 ^ 6 then fmt_frac u 3 (micro ++ "s") else fmt_frac u 6 "ms" in
      digits u' ++ s
  else
    let '(s, u1) := fmt_frac u 9 "s" in
    let sec := digits (u1 mod 60) ++ s in
    let u2 := u1 / 60 in
    if u2 >? 0 then
      let min := digits (u2 mod 60) ++ "m" ++ sec in
      let u3 := u2 / 60 in
      if u3 >? 0 then digits u3 ++ "h" ++ min else min
    else sec.
Definition duration_string (d : Z) : string := if d <? 0 then "-" ++ duration_abs (- d) else duration_abs d.
(** s[1:] of a string that is not empty *)
Definition tail (s : string) : string := match s with "" => "" | String _ r => r end.
