(** What a batch for Librato should contain: a measurement for each of the entries in the
    tables below, whose values come from the accessors of the metrics. *)
From Coq Require Import ZArith List String Bool.
From Verif.Model Require Import GoInt GoFloat GoBase World Librato.
From Verif.Model Require ExpDecay.
From Verif.Spec Require Import ApiSpec RegistrySpec GetAllSpec TextSpec ReportSpec WriteSpec.
Import ListNotations.
Local Open Scope string_scope.

(** where the value of a key comes from *)
Inductive source_of :=
| Named (ok : string -> Prop)       (* a text *)
| Number (c : op)                   (* the answer of an accessor, as a float *)
| Unsigned (c : op)                 (* as an unsigned integer *)
| MeanTimesCount                    (* the mean times the count *)
| Squares                           (* the sum of squares, from count, mean and standard deviation *)
| Seconds | WholeSeconds            (* the interval in seconds *)
| Attr (a : list (string * string)) (* display attributes *).
Definition entry := list (string * source_of).
Definition ops : list (string * string) := [("display_units_long", "operations"); ("display_units_short", "ops"); ("display_min", "0")].

Section Tables.
Variable ps : list f64.
Variable timers : list (string * string).
(** [full] is the name with the namespace, [x] is where the program holds the metric *)
Variables (full : string) (x : nat).
Definition exactly (s : string) : source_of := Named (eq s).
Definition rate_entry (suffix : string) (k : ratek) : entry :=
  [("name", exactly (full ++ suffix)); ("value", Number (OMRate x k)); ("period", WholeSeconds); ("attributes", Attr ops)].
(** the gauges of a metric whose count is positive or not *)
Definition gauge_entries (k : class) (positive : bool) : list entry :=
  match k with
  | CGauge | CGaugeF => [[("period", Seconds); ("name", exactly full); ("value", Number (OValue x))]]
  | CHist =>
    if positive then
      [("period", Seconds); ("name", exactly (full ++ ".hist")); ("count", Unsigned (OCount x)); ("max", Number (OStat x SMax)); ("min", Number (OStat x SMin)); ("sum", Number (OStat x SSum));
       ("sum_squares", Squares)]
      :: map (fun p => [("name", Named (fun s => exists t, s = full ++ ".hist." ++ t /\ shows_float 2 p t)); ("value", Number (OPercentile x p)); ("period", Seconds)]) ps
    else []
  | CMeter => [rate_entry ".1min" RK1; rate_entry ".5min" RK5; rate_entry ".15min" RK15]
  | CTimer =>
    if positive then
      [("name", exactly (full ++ ".timer.mean")); ("count", Unsigned (OCount x)); ("sum", MeanTimesCount); ("max", Number (OStat x SMax)); ("min", Number (OStat x SMin));
        ("sum_squares", Squares); ("period", WholeSeconds); ("attributes", Attr timers)]
      :: app (map (fun p => [("name", Named (fun s => exists t, s = full ++ ".timer." ++ t /\ shows_float 0 (fmul p (f_of_int 100)) (unpad t) /\ String.length t = Nat.max 2 (String.length (unpad t))));
                         ("value", Number (OPercentile x p)); ("period", WholeSeconds); ("attributes", Attr timers)]) ps)
         [rate_entry ".rate.1min" RK1; rate_entry ".rate.5min" RK5; rate_entry ".rate.15min" RK15]
    else []
  | _ => []
  end.
Definition counter_entries (k : class) (positive : bool) : list entry :=
  match k with
  | CCounter => if positive then [[("period", Seconds); ("name", exactly (full ++ ".count")); ("value", Number (OCount x)); ("attributes", Attr ops)]] else []
  | CMeter | CTimer => [[("period", Seconds); ("name", exactly full); ("value", Number (OCount x))]]
  | _ => []
  end.
End Tables.

(** an integer or float as a float *)
Definition as_float (a : rv) : option f64 := match a with RZ n => Some (f_of_int n) | RF y => Some y | _ => None end.
(** calls of Percentile, which may sort a sample *)
Definition percentile_calls (o : orc) (cs : list (op * orc)) : Prop := forall c o', In (c, o') cs -> o' = o /\ exists y p, c = OPercentile y p.
Section Batch.
Variable sq : f64 -> f64.
Variable mexp : f64 -> f64.
Variable st : state.
Variable o : orc.
Variable self : reporter.
(** the answer of an accessor called instead of making the batch *)
Definition says (c : op) (a : rv) : Prop := snd (step mexp st (c, o)) = Some (Ok a).
(** [v] is the value of a key of a metric that the program holds at [x] *)
Definition comes_from (x : nat) (s : source_of) (v : lval) : Prop :=
  match s with
  | Named ok => exists t, v = LS t /\ ok t
  | Number c => exists a y, says c a /\ as_float a = Some y /\ v = LF y
  | Unsigned c => exists n, says c (RZ n) /\ v = LU (n mod 2 ^ 64)
  | MeanTimesCount => exists n me, says (OCount x) (RZ n) /\ says (OStat x SMean) (RF me) /\ v = LF (fmul me (f_of_int n))
  | Squares => exists n me sd cs, says (OCount x) (RZ n) /\ says (OStat x SMean) (RF me) /\
      percentile_calls o cs /\ snd (step mexp (run mexp st cs) (OStat x SStdDev, o)) = Some (Ok (RF sd)) /\
      let total := fadd (sq (fmul (f_of_int n) sd)) (fdiv (sq (fmul (f_of_int n) me)) (f_of_int n)) in
      v = LF (if fis_nan total then f_zero else total)
  | Seconds => v = LF (ExpDecay.seconds (interval self))
  | WholeSeconds => v = LI (int_of_f (ExpDecay.seconds (interval self)))
  | Attr a => v = LA a
  end.
Definition lookup {A} (k : string) (l : list (string * A)) : option A :=
  match List.find (fun kv => String.eqb (fst kv) k) l with Some (_, a) => Some a | None => None end.
(** the measurement has exactly the keys of the entry *)
Definition fits (x : nat) (e : entry) (m : measurement) : Prop :=
  forall k, match lookup k e with Some s => exists v, lookup k m = Some v /\ comes_from x s v | None => lookup k m = None end.

Variable at_ : string -> nat.
Definition full_name (nm : string) : string := match namespace self with "" => nm | ns => ns ++ "." ++ nm end.
(** does the metric have a positive count? *)
Definition counted (nm : string) : bool :=
  match snd (step mexp st (OCount (at_ nm), o)) with Some (Ok (RZ n)) => (0 <? n)%Z | _ => false end.
(** the entries, with the place of the metric, for the metrics of the registry [v], visited in
    this order *)
Definition entries_of (table : string -> nat -> class -> bool -> list entry) (v : val) (names : list string) : list (nat * entry) :=
  flat_map (fun nm => match shown st v nm with Some i => map (pair (at_ nm)) (table (full_name nm) (at_ nm) (cls i) (counted nm)) | None => [] end) names.
Definition gauges_of : val -> list string -> list (nat * entry) := entries_of (gauge_entries (percentiles self) (timer_attributes self)).
Definition counters_of : val -> list string -> list (nat * entry) := entries_of counter_entries.
(** the percentile of a histogram or timer with a positive count cannot be computed *)
Definition percentile_panics (v : val) : Prop :=
  exists nm i p msg, shown st v nm = Some i /\ (cls i = CHist \/ cls i = CTimer) /\ counted nm = true /\ In p (percentiles self) /\
    snd (step mexp st (OPercentile (at_ nm) p, o)) = Some (Panic msg).
End Batch.
