(** What a batch for Librato should contain while the rest of the process goes on: each number
    is what the metric answered at some instant, though not all at the same one. *)
From Coq Require Import ZArith List String Bool.
From Verif.Model Require Import GoInt GoFloat GoBase World Librato.
From Verif.Model Require ExpDecay.
From Verif.Spec Require Import ApiSpec RegistrySpec GetAllSpec ReportSpec LibratoSpec.
Import ListNotations.
Local Open Scope string_scope.

Section Seen.
Variable sq : f64 -> f64.
Variable mexp : f64 -> f64.
Variable self : reporter.
(** the states in which the reporter made its calls about a metric *)
Variable seg : list state.
(** in one of them the accessor [c] answers [a] *)
Definition seen (c : op) (a : rv) : Prop := exists s o, In s seg /\ snd (step mexp s (c, o)) = Some (Ok a).
(** as [comes_from] of LibratoSpec.v *)
Definition came_from (x : nat) (s : source_of) (v : lval) : Prop :=
  match s with
  | Named ok => exists t, v = LS t /\ ok t
  | Number c => exists a y, seen c a /\ as_float a = Some y /\ v = LF y
  | Unsigned c => exists n, seen c (RZ n) /\ v = LU (n mod 2 ^ 64)
  | MeanTimesCount => exists n me, seen (OCount x) (RZ n) /\ seen (OStat x SMean) (RF me) /\ v = LF (fmul me (f_of_int n))
  | Squares => exists n me sd, seen (OCount x) (RZ n) /\ seen (OStat x SMean) (RF me) /\ seen (OStat x SStdDev) (RF sd) /\
      let total := fadd (sq (fmul (f_of_int n) sd)) (fdiv (sq (fmul (f_of_int n) me)) (f_of_int n)) in
      v = LF (if fis_nan total then f_zero else total)
  | Seconds => v = LF (ExpDecay.seconds (interval self))
  | WholeSeconds => v = LI (int_of_f (ExpDecay.seconds (interval self)))
  | Attr a => v = LA a
  end.
Definition fitted (x : nat) (e : entry) (m : measurement) : Prop :=
  forall k, match lookup k e with Some s => exists v, lookup k m = Some v /\ came_from x s v | None => lookup k m = None end.

(** The gauges and counters of the metric [i] named [nm], which the program holds at [x]; the
    numbers of a histogram are asked of its sample, which it holds at [y].  A metric is left
    out, or sent without its distribution, if at one of these instants its count was not
    positive. *)
Definition measured (nm : string) (i : val) (gs cs : list measurement) : Prop :=
  if class_eqb (cls i) CHealth then gs = [] /\ cs = [] /\ seg = [] else
  exists x y positive,
    seg <> [] /\ (forall s, In s seg -> nth_error (snd s) x = Some i) /\
    match cls i with
    | CCounter | CHist | CTimer => exists n, seen (OCount x) (RZ n) /\ positive = (0 <? n)%Z
    | _ => True
    end /\
    (if class_eqb (cls i) CHist && positive
     then exists smp, seen (OSample x) (RVal smp) /\ exists s, In s seg /\ nth_error (snd s) y = Some smp
     else y = x) /\
    Forall2 (fitted y) (gauge_entries (percentiles self) (timer_attributes self) (full_name self nm) y (cls i) positive) gs /\
    Forall2 (fitted y) (counter_entries (full_name self nm) y (cls i) positive) cs.
End Seen.
