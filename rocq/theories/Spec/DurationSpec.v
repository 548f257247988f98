(** Reading durations such as "1h2m3.5s": a sign, then numbers each followed by a unit.
    (The notation of time.ParseDuration.)  Independent of how durations are printed. *)
From Coq Require Import ZArith QArith List String Ascii Bool.
From Verif.Spec Require Import TextSpec.
Import ListNotations.
Local Open Scope string_scope.
Local Open Scope Z_scope.

(** the units in nanoseconds; the second is "µs" in UTF-8 *)
Definition unit_names : list (string * Z) :=
  [("ns", 1); (String (ascii_of_nat 194) (String (ascii_of_nat 181) "s"), 10 ^ 3); ("ms", 10 ^ 6); ("s", 10 ^ 9); ("m", 60 * 10 ^ 9); ("h", 3600 * 10 ^ 9)].
(** [s] without the prefix [p] *)
Fixpoint cut (p s : string) : option string :=
  match p, s with
  | "", _ => Some s
  | String a p', String b s' => if Ascii.eqb a b then cut p' s' else None
  | _, "" => None
  end.
Fixpoint read_unit (l : list (string * Z)) (s : string) : option (Z * string) :=
  match l with
  | [] => None
  | (p, k) :: l' => match cut p s with Some r => Some (k, r) | None => read_unit l' s end
  end.
(** the number whose digits are those of [acc] and the leading digits of [s], how many
    these are, and what follows them *)
Fixpoint span_digits (acc : Z) (n : nat) (s : string) : Z * nat * string :=
  match s with
  | "" => (acc, n, s)
  | String a r => match digit_value a with Some d => span_digits (10 * acc + d) (S n) r | None => (acc, n, s) end
  end.
Definition read_fraction (m : Z) (s : string) : Z * nat * string :=
  match s with String a r => if Ascii.eqb a "."%char then span_digits m 0 r else (m, O, s) | "" => (m, O, s) end.
(** one number with its unit, in nanoseconds *)
Definition read_component (s : string) : option (Q * string) :=
  let '(m, k, r) := span_digits 0 0 s in
  if Nat.eqb k 0 then None
  else
    let '(m', j, r') := read_fraction m r in
    match read_unit unit_names r' with
    | Some (u, rest) => Some ((inject_Z (m' * u) / inject_Z (10 ^ Z.of_nat j))%Q, rest)
    | None => None
    end.
Fixpoint read_components (fuel : nat) (s : string) : option Q :=
  match s, fuel with
  | "", _ => Some 0%Q
  | _, O => None
  | _, S f => match read_component s with Some (q, rest) => option_map (Qplus q) (read_components f rest) | None => None end
  end.
Definition read_abs (s : string) : option Q := match s with "" => None | _ => read_components (String.length s) s end.
(** [s] is a duration of [q] nanoseconds *)
Definition is_duration (s : string) (q : Q) : Prop :=
  match s with
  | String "-"%char r => exists x, read_abs r = Some x /\ (q == - x)%Q
  | _ => exists x, read_abs s = Some x /\ (q == x)%Q
  end.
