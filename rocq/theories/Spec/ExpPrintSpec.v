(** What the response of the expvar handler should say. *)
From Coq Require Import ZArith List String Ascii Bool.
From Verif.Model Require Import GoInt GoFloat Expvar.
From Verif.Spec Require Import TextSpec JsonText.
Import ListNotations.
Local Open Scope string_scope.

(** a name of which every character has the same notation in Go and in JSON: printable ASCII,
    and of the control characters backspace, tab, line feed, form feed and carriage return *)
Definition shared (c : ascii) : bool := between 32 126 c || existsb (Nat.eqb (nat_of_ascii c)) [8; 9; 10; 12; 13]%nat.
Definition plain_name (s : string) : bool := forallb shared (list_ascii_of_string s).
(** bytes below 127 *)
Definition ascii_text (s : string) : bool := forallb (between 0 126) (list_ascii_of_string s).
Definition finite_var (x : evar) : bool := match x with EFloat f => fis_finite f | _ => true end.
(** the value [j] of the member [k] is that of the variable [x] *)
Definition var_says (number_g : f64 -> string) (other : string -> string) (k : string) (x : evar) (j : json) : Prop :=
  match x with
  | EInt n => exists t, j = JNum t /\ parse_int t = Some n
  | EFloat f => j = JNum (number_g f)
  | EOther => is_json (other k) j
  end.
