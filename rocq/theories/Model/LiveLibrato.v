(** The Librato reporter (librato/librato.go) while the rest of the process goes on: as
    [build_request] of Librato.v, but one call of the API after the other, as in Live.v.  It
    takes no snapshots, so each of these calls is a reading of its own. *)
From Coq Require Import ZArith List String Bool.
From Verif.Model Require Import GoInt GoFloat GoBase World Fmt Report Librato Live.
Import ListNotations.
Local Open Scope string_scope.
Local Open Scope Z_scope.

Section LiveLibrato.
Variable sq : f64 -> f64.
Variable mexp : f64 -> f64.
Variable self : reporter.
Notation "x <~ m ;; f" := (lbind m (fun x => f)) (at level 61, m at next level, right associativity).
Notation ask_z := (ask_z mexp).
Notation ask_f := (ask_f mexp).
Notation period := (period self).
Notation whole_period := (whole_period self).
Notation rate_gauge := (rate_gauge self).

(** librato.go:128-134 and 190-197: a gauge for each percentile *)
Fixpoint live_gauges (render : f64 -> f64 -> measurement) (x : nat) (ps : list f64) : L (list measurement) :=
  match ps with
  | [] => lret []
  | p :: r => q <~ ask_f (OPercentile x p);; rest <~ live_gauges render x r;; lret (render p q :: rest)
  end.
Definition hist_gauge (name : string) (p q : f64) : measurement := [("name", LS (name ++ "." ++ fmt_f 2 p)); ("value", LF q); ("period", period)].
Definition timer_gauge (name : string) (p q : f64) : measurement :=
  [("name", LS (name ++ ".timer." ++ pad 2 (fmt_f 0 (fmul p (f_of_int 100))))); ("value", LF q); ("period", whole_period); ("attributes", LA (timer_attributes self))].

(** librato.go:91-233, the callback for the metric at [x]: what it appends to Gauges and to
    Counters *)
Definition live_measure (name0 : string) (x : nat) : L (list measurement * list measurement) :=
  let name := if String.eqb (namespace self) "" then name0 else namespace self ++ "." ++ name0 in
  k <~ kind_at x;;
  match k with
  | CCounter =>
    n <~ ask_z (OCount x);;
    if 0 <? n then
      n <~ ask_z (OCount x);;
      lret ([], [[("period", period); ("name", LS (name ++ ".count")); ("value", LF (f_of_int n)); ("attributes", operations)]])
    else lret ([], [])
  | CGauge => n <~ ask_z (OValue x);; lret ([[("period", period); ("name", LS name); ("value", LF (f_of_int n))]], [])
  | CGaugeF => y <~ ask_f (OValue x);; lret ([[("period", period); ("name", LS name); ("value", LF y)]], [])
  | CHist =>
    n <~ ask_z (OCount x);;
    if 0 <? n then
      s <~ Live.call mexp (OSample x);; let s := fst s in
      n <~ ask_z (OCount s);; mx <~ ask_z (OStat s SMax);; mn <~ ask_z (OStat s SMin);; sm <~ ask_z (OStat s SSum);;
      c <~ ask_z (OCount s);; me <~ ask_f (OStat s SMean);; sd <~ ask_f (OStat s SStdDev);;
      gs <~ live_gauges (hist_gauge (name ++ ".hist")) s (percentiles self);;
      lret ([("period", period); ("name", LS (name ++ ".hist")); ("count", LU (wrapu64 n)); ("max", LF (f_of_int mx)); ("min", LF (f_of_int mn));
             ("sum", LF (f_of_int sm)); ("sum_squares", LF (sum_squares sq c me sd))] :: gs, [])
    else lret ([], [])
  | CMeter =>
    n <~ ask_z (OCount x);;
    r1 <~ ask_f (OMRate x RK1);; r5 <~ ask_f (OMRate x RK5);; r15 <~ ask_f (OMRate x RK15);;
    lret ([rate_gauge (name ++ ".1min") r1; rate_gauge (name ++ ".5min") r5; rate_gauge (name ++ ".15min") r15],
          [[("period", period); ("name", LS name); ("value", LF (f_of_int n))]])
  | CTimer =>
    n0 <~ ask_z (OCount x);;
    n <~ ask_z (OCount x);;
    if 0 <? n then
      n <~ ask_z (OCount x);; me <~ ask_f (OStat x SMean);; n' <~ ask_z (OCount x);; mx <~ ask_z (OStat x SMax);; mn <~ ask_z (OStat x SMin);;
      c <~ ask_z (OCount x);; me' <~ ask_f (OStat x SMean);; sd <~ ask_f (OStat x SStdDev);;
      gs <~ live_gauges (timer_gauge name) x (percentiles self);;
      r1 <~ ask_f (OMRate x RK1);; r5 <~ ask_f (OMRate x RK5);; r15 <~ ask_f (OMRate x RK15);;
      lret (([("name", LS (name ++ ".timer.mean")); ("count", LU (wrapu64 n)); ("sum", LF (fmul me (f_of_int n'))); ("max", LF (f_of_int mx)); ("min", LF (f_of_int mn));
              ("sum_squares", LF (sum_squares sq c me' sd)); ("period", whole_period); ("attributes", LA (timer_attributes self))]
             :: gs ++ [rate_gauge (name ++ ".rate.1min") r1; rate_gauge (name ++ ".rate.5min") r5; rate_gauge (name ++ ".rate.15min") r15])%list,
            [[("period", period); ("name", LS name); ("value", LF (f_of_int n0))]])
    else lret ([], [[("period", period); ("name", LS name); ("value", LF (f_of_int n0))]])
  | _ => lret ([], [])
  end.
(** librato.go:82-235 *)
Definition live_build (now : Z) (r : nat) : L batch :=
  q <~ lres (go_div (unix now) (interval_sec self));;
  let time := wrap64 (q * interval_sec self) in
  ms <~ live_visit mexp (fun name x => gc <~ live_measure name x;; lret [gc]) as_it_is r;;
  lret (MkBatch (List.concat (map fst ms)) (List.concat (map snd ms)) time (source self)).
End LiveLibrato.
