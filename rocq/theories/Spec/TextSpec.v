(** Reading text: splitting at a character, decimal numbers.  Used to say what the
    printed reports mean; independent of how they are printed. *)
From Coq Require Import ZArith List String Ascii Bool Reals.
From Verif.Model Require Import GoInt GoFloat.
Import ListNotations.
Open Scope string_scope.
Open Scope Z_scope.

(** the pieces of [s] between occurrences of [c] *)
Fixpoint split (c : ascii) (s : string) : list string :=
  match s with
  | "" => [""]
  | String a r =>
    if Ascii.eqb a c then "" :: split c r
    else match split c r with p :: ps => String a p :: ps | [] => [String a ""] end
  end.
Definition space : ascii := " "%char.
Definition line_feed : ascii := ascii_of_nat 10.
(** text that consists of whole lines *)
Definition lines_of (s : string) : option (list string) :=
  match rev (split line_feed s) with "" :: r => Some (rev r) | _ => None end.
(** [c] does not occur in [s] *)
Fixpoint free (c : ascii) (s : string) : bool :=
  match s with "" => true | String a r => negb (Ascii.eqb a c) && free c r end.
(** without blanks and line feeds *)
Definition clean (s : string) : bool := free space s && free line_feed s.

Definition digit_value (a : ascii) : option Z :=
  let n := Z.of_nat (nat_of_ascii a) in if (48 <=? n) && (n <=? 57) then Some (n - 48) else None.
(** the number whose digits follow those of [acc] *)
Fixpoint decimal (acc : Z) (s : string) : option Z :=
  match s with
  | "" => Some acc
  | String a r => match digit_value a with Some d => decimal (10 * acc + d) r | None => None end
  end.
Definition parse_nat (s : string) : option Z := match s with "" => None | _ => decimal 0 s end.
Definition signed (f : string -> option Z) (s : string) : option Z :=
  match s with
  | String a r => if Ascii.eqb a "-"%char then option_map Z.opp (f r) else f s
  | "" => f s
  end.
(** an integer *)
Definition parse_int : string -> option Z := signed parse_nat.
(** a number with exactly [k] decimals, in units of the last one *)
Definition parse_units (k : nat) (s : string) : option Z :=
  match k with
  | O => parse_nat s
  | _ =>
    match split "."%char s with
    | [a; b] =>
      match parse_nat a, decimal 0 b with
      | Some x, Some y => if Nat.eqb (String.length b) k then Some (x * 10 ^ Z.of_nat k + y) else None
      | _, _ => None
      end
    | _ => None
    end
  end.
Definition parse_fixed (k : nat) : string -> option Z := signed (parse_units k).

(** [s] is [x] to [k] decimals: the nearest such number, the even one if there are two *)
Definition shows_float (k : nat) (x : f64) (s : string) : Prop :=
  if fis_finite x then exists n, parse_fixed k s = Some n /\ (Rabs (IZR n - f2r x * 10 ^ k) <= / 2)%R /\
    (Rabs (IZR n - f2r x * 10 ^ k) = / 2 -> Z.even n = true)%R
  else if fis_nan x then s = "NaN"
  else if flt x f_zero then s = "-Inf" else s = "+Inf".
