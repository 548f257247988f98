(** What the reporters should print: for every kind of metric the fields, the accessor of
    the metric each of them comes from, and how it is printed. *)
From Coq Require Import ZArith List String Ascii Bool.
From Verif.Model Require Import GoInt GoFloat GoBase World.
From Verif.Spec Require Import ApiSpec RegistrySpec HealthSpec GetAllSpec TextSpec.
Import ListNotations.
Local Open Scope string_scope.

(** ** The answer of an accessor of the metric at [x] at the time of the report *)
(** It is that of the metric itself, called instead of the report.  Only the standard
    deviation (and the variance), which depend on the order of the sample, are those of a
    snapshot of which the percentiles have been asked (which sorts it). *)
Definition answer (mexp : f64 -> f64) (st : state) (o : orc) (ps : list f64) (x : nat) (c : op) : option (res rv) :=
  if order_free c then snd (step mexp st (c, o))
  else let y := List.length (snd st) in snd (step mexp (run mexp st [(OSnapshot x, o); (OPercentiles y ps, o)]) (at_index y c, o)).

(** ** Printed numbers *)
Inductive style :=
| Whole              (* an integer *)
| Fixed (k : nat)    (* a float with [k] decimals *)
| WholePer           (* an integer number of time units, rounded towards zero *)
| FixedPer (k : nat) (* a number of time units with [k] decimals *).
(** [t] is the number [a] printed in the style [s]; a time unit is [u] nanoseconds *)
Definition prints (u : Z) (s : style) (a : rv) (t : string) : Prop :=
  match s, a with
  | Whole, RZ n => parse_int t = Some n
  | WholePer, RZ n => parse_int t = Some (wrap64 (Z.quot n u))
  | Fixed k, RF x => shows_float k x t
  | FixedPer k, RF x => shows_float k (fdiv x (f_of_int u)) t
  | FixedPer k, RZ n => shows_float k (fdiv (f_of_int n) (f_of_int u)) t
  | _, _ => False
  end.

(** ** Fields *)
Definition field : Type := string * op * style.
Section Fields.
Variable x : nat.
Definition rate_table (mean : string) : list field :=
  [("one-minute", OMRate x RK1, Fixed 2); ("five-minute", OMRate x RK5, Fixed 2); ("fifteen-minute", OMRate x RK15, Fixed 2); (mean, OMRate x RKMean, Fixed 2)].
Definition scalar_table (k : class) : list field :=
  match k with
  | CCounter => [("count", OCount x, Whole)]
  | CGauge => [("value", OValue x, Whole)]
  | CGaugeF => [("value", OValue x, Fixed 6)]
  | CMeter => ("count", OCount x, Whole) :: rate_table "mean"
  | _ => []
  end.
(** min, max, mean and standard deviation *)
Definition summary (whole fixed : style) : list field :=
  [("count", OCount x, Whole); ("min", OStat x SMin, whole); ("max", OStat x SMax, whole); ("mean", OStat x SMean, fixed); ("std-dev", OStat x SStdDev, fixed)].
(** Graphite: [key p] names the percentile [p] *)
Definition graphite_table (key : f64 -> string) (ps : list f64) (k : class) : list field :=
  let percentiles := map (fun p => (key p ++ "-percentile", OPercentile x p, Fixed 2)) ps in
  match k with
  | CHist => (summary Whole (Fixed 2) ++ percentiles)%list
  | CTimer => (summary WholePer (FixedPer 2) ++ percentiles ++ rate_table "mean-rate")%list
  | _ => scalar_table k
  end.
(** OpenTSDB *)
Definition five (s : style) : list field :=
  [("50-percentile", OPercentile x (ratio 1 2), s); ("75-percentile", OPercentile x (ratio 3 4), s); ("95-percentile", OPercentile x (ratio 95 100), s);
   ("99-percentile", OPercentile x (ratio 99 100), s); ("999-percentile", OPercentile x (ratio 999 1000), s)].
Definition opentsdb_table (k : class) : list field :=
  match k with
  | CHist => (summary Whole (Fixed 2) ++ five (Fixed 2))%list
  | CTimer => (summary WholePer (FixedPer 2) ++ five (FixedPer 2) ++ rate_table "mean-rate")%list
  | _ => scalar_table k
  end.
End Fields.
(** the percentiles OpenTSDB and the textual reports show *)
Definition standard : list f64 := map (fun q => ratio (fst q) (snd q)) [(1, 2); (3, 4); (95, 100); (99, 100); (999, 1000)]%Z.

(** ** What a registry value shows: a prefixed registry only the names that begin with its
    prefix *)
Definition shown (st : state) (v : val) (nm : string) : option val :=
  match base v with
  | Some b => if String.prefix (full v "") nm then registered (fst st) b nm else None
  | None => None
  end.
(** the names in the order in which a report visits them *)
Definition visits (st : state) (v : val) (names : list string) : Prop :=
  NoDup names /\ forall nm, In nm names <-> shown st v nm <> None.
(** the fields of these metrics, one after the other; the program holds the metric named
    [nm] at [at_ nm] *)
Definition fields (st : state) (v : val) (at_ : string -> nat) (table : nat -> class -> list field) (names : list string) : list (string * field) :=
  flat_map (fun nm => match shown st v nm with Some i => map (pair nm) (table (at_ nm) (cls i)) | None => [] end) names.
(** ** Percentile keys and host names *)
(** the decimal point removed *)
Definition without_point (s : string) : string := String.concat "" (split "."%char s).
(** the name of the percentile [p], from the decimal notation of 100 p *)
Definition key_of (decimal : f64 -> string) (p : f64) : string := without_point (decimal (fmul p (f_of_int 100))).
(** the part before the first dot, if there is any *)
Definition first_label (host : string) : string :=
  match split "."%char host with "" :: _ => host | a :: _ => a | [] => host end.
(** seconds since 1970 *)
Definition seconds (o : orc) : Z := (o_now o / 10 ^ 9)%Z.

(** ** When a report can be made *)
(** Snapshot and Percentiles of the histograms and timers return, and no function of a health
    check panics (if the reporter runs health checks) *)
Definition prepared (mexp : f64 -> f64) (st : state) (v : val) (o : orc) (ps : list f64) (health : bool) : Prop :=
  (forall nm i, shown st v nm = Some i -> cls i = CHist \/ cls i = CTimer ->
     exists x r1 r2, nth_error (snd st) x = Some i /\ snd (step mexp st (OSnapshot x, o)) = Some (Ok r1) /\ snd (step mexp st (OPercentiles x ps, o)) = Some (Ok r2)) /\
  (health = true -> forall nm lh e f, shown st v nm = Some (VHealth lh) -> nth_error (heap (fst st)) lh = Some (OHealth e f) -> forall e', panics (o_health o f e') = false).

(** ** Lines *)
(** the line [l] reports the field [nf] of a metric: "path value time" *)
Definition graphite_says (mexp : f64 -> f64) (st : state) (o : orc) (ps : list f64) (at_ : string -> nat) (prefix : string) (u : Z) (l : string) (nf : string * field) : Prop :=
  let '(nm, (f, c, s)) := nf in
  exists value time a, split space l = [prefix ++ "." ++ nm ++ "." ++ f; value; time] /\ parse_int time = Some (seconds o) /\
    answer mexp st o ps (at_ nm) c = Some (Ok a) /\ prints u s a value.
(** "put path time value host=h" *)
Definition opentsdb_says (mexp : f64 -> f64) (st : state) (o : orc) (at_ : string -> nat) (prefix host : string) (u : Z) (l : string) (nf : string * field) : Prop :=
  let '(nm, (f, c, s)) := nf in
  exists value time a, split space l = ["put"; prefix ++ "." ++ nm ++ "." ++ f; time; value; "host=" ++ first_label host] /\ parse_int time = Some (seconds o) /\
    answer mexp st o standard (at_ nm) c = Some (Ok a) /\ prints u s a value.
