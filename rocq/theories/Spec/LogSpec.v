(** What Log, Syslog and Stathat should report. *)
From Coq Require Import ZArith List String Ascii Bool.
From Verif.Model Require Import GoInt GoFloat GoBase World Report.
From Verif.Spec Require Import ApiSpec RegistrySpec GetAllSpec TextSpec ReportSpec WriteSpec.
Import ListNotations.
Local Open Scope nat_scope.
Local Open Scope string_scope.

Section Tables.
Variable x : nat.
(** ** Log: as WriteOnce, but the durations of a timer are given in time units *)
Definition log_rows (k : class) : list row :=
  match k with
  | CTimer =>
    ([("  count:       ", 9, OCount x, Whole); ("  min:         ", 12, OStat x SMin, FixedPer 2); ("  max:         ", 12, OStat x SMax, FixedPer 2);
      ("  mean:        ", 12, OStat x SMean, FixedPer 2); ("  stddev:      ", 12, OStat x SStdDev, FixedPer 2)] ++ percentile_rows x (FixedPer 2) ++ rate_rows x)%list
  | _ => text_rows x k
  end.
(** ** Syslog: one message for each metric *)
Definition sys_rates (mean : string) : list field :=
  [("1-min", OMRate x RK1, Fixed 2); ("5-min", OMRate x RK5, Fixed 2); ("15-min", OMRate x RK15, Fixed 2); (mean, OMRate x RKMean, Fixed 2)].
Definition sys_distribution : list field :=
  [("count", OCount x, Whole); ("min", OStat x SMin, Whole); ("max", OStat x SMax, Whole); ("mean", OStat x SMean, Fixed 2); ("stddev", OStat x SStdDev, Fixed 2);
   ("median", OPercentile x (ratio 1 2), Fixed 2); ("75%", OPercentile x (ratio 3 4), Fixed 2); ("95%", OPercentile x (ratio 95 100), Fixed 2);
   ("99%", OPercentile x (ratio 99 100), Fixed 2); ("99.9%", OPercentile x (ratio 999 1000), Fixed 2)].
Definition sys_table (k : class) : list field :=
  match k with
  | CCounter => [("count", OCount x, Whole)]
  | CGauge => [("value", OValue x, Whole)]
  | CGaugeF => [("value", OValue x, Fixed 6)]
  | CHist => sys_distribution
  | CMeter => ("count", OCount x, Whole) :: sys_rates "mean"
  | CTimer => (sys_distribution ++ sys_rates "mean-rate")%list
  | _ => []
  end.
(** ** Stathat: counts and values; the name of each is that of the metric and a suffix *)
Inductive sort := ACount | AValue.
Definition hat_rates (mean : string) : list (string * op * sort) :=
  [(".one-minute", OMRate x RK1, AValue); (".five-minute", OMRate x RK5, AValue); (".fifteen-minute", OMRate x RK15, AValue); (mean, OMRate x RKMean, AValue)].
Definition hat_distribution : list (string * op * sort) :=
  [(".count", OCount x, ACount); (".min", OStat x SMin, AValue); (".max", OStat x SMax, AValue); (".mean", OStat x SMean, AValue); (".std-dev", OStat x SStdDev, AValue);
   (".50-percentile", OPercentile x (ratio 1 2), AValue); (".75-percentile", OPercentile x (ratio 3 4), AValue); (".95-percentile", OPercentile x (ratio 95 100), AValue);
   (".99-percentile", OPercentile x (ratio 99 100), AValue); (".999-percentile", OPercentile x (ratio 999 1000), AValue)].
Definition hat_table (k : class) : list (string * op * sort) :=
  match k with
  | CCounter => [("", OCount x, ACount)]
  | CGauge | CGaugeF => [("", OValue x, AValue)]
  | CHist => hat_distribution
  | CMeter => (".count", OCount x, ACount) :: hat_rates ".mean"
  | CTimer => (hat_distribution ++ hat_rates ".mean-rate")%list
  | _ => []
  end.
End Tables.

(** the message is "kind name: label: number label: number ..." *)
Definition message (k : class) (nm : string) (parts : list (string * string)) : string :=
  word k ++ " " ++ nm ++ ":" ++ String.concat "" (map (fun p => " " ++ fst p ++ ": " ++ snd p) parts).
Definition part_says (mexp : f64 -> f64) (st : state) (o : orc) (x : nat) (p : string * string) (f : field) : Prop :=
  let '(label, c, s) := f in fst p = label /\ exists a, answer mexp st o standard x c = Some (Ok a) /\ prints 1 s a (snd p).
Definition sys_says (mexp : f64 -> f64) (error_text : Z -> string) (st : state) (v : val) (o : orc) (x : nat) (nm : string) (i : val) (l : string) : Prop :=
  exists parts, l = message (cls i) nm parts /\
    if class_eqb (cls i) CHealth then exists e, parts = [("error", error_says error_text e)] /\ says_error mexp st v o i x e
    else Forall2 (part_says mexp st o x) parts (sys_table x (cls i)).
(** [y] is the number [a] as a float64 *)
Definition as_float (a : rv) (y : f64) : Prop :=
  match a with RZ n => y = f_of_int n | RF z => y = z | _ => False end.
(** the call of package stathat posts the accessor's answer under the metric's name *)
Definition hat_says (mexp : f64 -> f64) (st : state) (o : orc) (x : nat) (nm : string) (p : post) (f : string * op * sort) : Prop :=
  let '(suffix, c, s) := f in
  exists a, answer mexp st o standard x c = Some (Ok a) /\
    match s, p with
    | ACount, PostCount n k => n = nm ++ suffix /\ a = RZ k
    | AValue, PostValue n y => n = nm ++ suffix /\ as_float a y
    | _, _ => False
    end.
(** the name a post is made under *)
Definition post_name (p : post) : string := match p with PostCount n _ | PostValue n _ => n end.
(** the same oracle with other health check functions *)
Definition with_health (h : nat -> option err -> list hact) (o : orc) : orc :=
  MkOrc (o_now o) (o_draw o) (o_rand o) (o_fun o) (o_funf o) h (o_order o).
