(** What GetAll (registry.go:129-182) should report of each kind of metric: the keys,
    and the accessor of the metric each value comes from. *)
From Coq Require Import ZArith List String.
From Verif.Model Require Import GoInt GoFloat GoBase World.
Import ListNotations.
Local Open Scope string_scope.

(** the float64 nearest to a/b *)
Definition ratio (a b : Z) : f64 := fdiv (f_of_int a) (f_of_int b).
Definition distribution (x : nat) : list (string * op) :=
  [("count", OCount x); ("min", OStat x SMin); ("max", OStat x SMax); ("mean", OStat x SMean); ("stddev", OStat x SStdDev);
   ("median", OPercentile x (ratio 1 2)); ("75%", OPercentile x (ratio 3 4)); ("95%", OPercentile x (ratio 95 100));
   ("99%", OPercentile x (ratio 99 100)); ("99.9%", OPercentile x (ratio 999 1000))].
Definition rates (x : nat) : list (string * op) :=
  [("1m.rate", OMRate x RK1); ("5m.rate", OMRate x RK5); ("15m.rate", OMRate x RK15); ("mean.rate", OMRate x RKMean)].
(** [x] is where the program holds the metric *)
Definition accessors (k : class) (x : nat) : list (string * op) :=
  match k with
  | CCounter => [("count", OCount x)]
  | CGauge | CGaugeF => [("value", OValue x)]
  | CHealth => [("error", OError x)]
  | CHist => distribution x
  | CMeter => ("count", OCount x) :: rates x
  | CTimer => (distribution x ++ rates x)%list
  | _ => []
  end.
(** a reported value as the result of a call *)
Definition as_result (g : gval) : rv := match g with GZ n => RZ n | GF x => RF x | GE e => RErr e end.
