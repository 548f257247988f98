(** librato/librato.go and the constants of librato/client.go.

    Simplifications.  A Measurement (a map) is an association list without duplicate keys.
    [sq x] is math.Pow(x, 2).  Run and PostMetrics are in LibratoPost.v. *)
From Coq Require Import ZArith List String Ascii Bool.
From Verif.Model Require Import GoInt GoFloat GoBase World Fmt Duration Report.
From Verif.Model Require ExpDecay.
Import ListNotations.
Open Scope string_scope.
Open Scope Z_scope.
Open Scope world_scope.

(** an interface{} that a measurement contains: float64, uint64, int64, string, attributes *)
Inductive lval := LF (x : f64) | LU (n : Z) | LI (n : Z) | LS (s : string) | LA (a : list (string * string)).
Definition measurement := list (string * lval).
(** client.go:61-66 *)
Record batch := MkBatch { b_gauges : list measurement; b_counters : list measurement; b_time : Z; b_source : string }.
(** librato.go:24-33, without e-mail, token and registry *)
Record reporter := MkReporter {
  namespace : string; source : string; interval : Z; percentiles : list f64;
  timer_attributes : list (string * string); interval_sec : Z }.

(** librato.go:13-14: the longest part of [s] at its end that matches [^\d]+; nothing if
    [s] ends in a digit *)
Definition is_digit (c : ascii) : bool := Nat.leb 48 (nat_of_ascii c) && Nat.leb (nat_of_ascii c) 57.
Fixpoint no_digit (s : string) : bool := match s with "" => true | String c r => negb (is_digit c) && no_digit r end.
Fixpoint unit_match (s : string) : string := if no_digit s then s else match s with String _ r => unit_match r | "" => "" end.
Definition short_unit (d : Z) : string := unit_match (duration_string d).

Section Librato.
Variable sq : f64 -> f64.

(** librato.go:17-22 *)
Definition translate_timer_attributes (d : Z) : list (string * string) :=
  [("display_transform", "x/" ++ fmt_d d); ("display_units_short", short_unit d)].
(** librato.go:35-37; d / time.Second truncates *)
Definition new_reporter (d : Z) (s : string) (p : list f64) (u : Z) : reporter :=
  MkReporter "" s d p (translate_timer_attributes u) (Z.quot d (10 ^ 9)).

(** librato.go:63-81 *)
Definition sum_squares (n : Z) (mean sd : f64) : f64 :=
  let count := f_of_int n in
  let squared := sq (fmul count mean) in
  let s := fadd (sq (fmul count sd)) (fdiv squared count) in
  if fis_nan s then f_zero else s.

Section Reporter.
Variable self : reporter.
Definition period : lval := LF (ExpDecay.seconds (interval self)).
Definition whole_period : lval := LI (int_of_f (ExpDecay.seconds (interval self))).
Definition operations : lval :=
  LA [("display_units_long", "operations"); ("display_units_short", "ops"); ("display_min", "0")].

(** librato.go:128-134 *)
Fixpoint hist_gauges (name : string) (s : val) (ps : list f64) : M (list measurement) :=
  match ps with
  | [] => ret []
  | p :: r =>
    q <- (l <- sample_percentiles [p] s;; first_score l);;
    rest <- hist_gauges name s r;;
    ret ([("name", LS (name ++ "." ++ fmt_f 2 p)); ("value", LF q); ("period", period)] :: rest)
  end.
(** librato.go:190-197 *)
Fixpoint timer_gauges (name : string) (v : val) (ps : list f64) : M (list measurement) :=
  match ps with
  | [] => ret []
  | p :: r =>
    q <- (l <- timer_percentiles [p] v;; first_score l);;
    rest <- timer_gauges name v r;;
    ret ([("name", LS (name ++ ".timer." ++ pad 2 (fmt_f 0 (fmul p (f_of_int 100))))); ("value", LF q); ("period", whole_period); ("attributes", LA (timer_attributes self))] :: rest)
  end.
Definition rate_gauge (name : string) (x : f64) : measurement :=
  [("name", LS name); ("value", LF x); ("period", whole_period); ("attributes", operations)].

(** librato.go:91-233, the callback: what it appends to Gauges and to Counters *)
Definition measure (name0 : string) (v : val) : M (list measurement * list measurement) :=
  let name := if String.eqb (namespace self) "" then name0 else namespace self ++ "." ++ name0 in
  match cls v with
  | CCounter =>
    n <- counter_count v;;
    if 0 <? n then
      n <- counter_count v;;
      ret ([], [[("period", period); ("name", LS (name ++ ".count")); ("value", LF (f_of_int n)); ("attributes", operations)]])
    else ret ([], [])
  | CGauge => n <- gauge_value v;; ret ([[("period", period); ("name", LS name); ("value", LF (f_of_int n))]], [])
  | CGaugeF => x <- gaugef_value v;; ret ([[("period", period); ("name", LS name); ("value", LF x)]], [])
  | CHist =>
    n <- hist_count v;;
    if 0 <? n then
      s <- hist_sample v;;
      n <- sample_count s;; mx <- sample_stat SMax s;; mn <- sample_stat SMin s;; sm <- sample_stat SSum s;;
      c <- sample_count s;; me <- sample_stat SMean s;; sd <- sample_stat SStdDev s;;
      let h := [("period", period); ("name", LS (name ++ ".hist")); ("count", LU (wrapu64 n)); ("max", LF (f_of_int (rv_z mx))); ("min", LF (f_of_int (rv_z mn)));
                ("sum", LF (f_of_int (rv_z sm))); ("sum_squares", LF (sum_squares c (rv_f me) (rv_f sd)))] in
      gs <- hist_gauges (name ++ ".hist") s (percentiles self);;
      ret (h :: gs, [])
    else ret ([], [])
  | CMeter =>
    n <- meter_count v;;
    r1 <- meter_rate RK1 v;; r5 <- meter_rate RK5 v;; r15 <- meter_rate RK15 v;;
    ret ([rate_gauge (name ++ ".1min") r1; rate_gauge (name ++ ".5min") r5; rate_gauge (name ++ ".15min") r15],
         [[("period", period); ("name", LS name); ("value", LF (f_of_int n))]])
  | CTimer =>
    n <- timer_count v;;
    let counter := [("period", period); ("name", LS name); ("value", LF (f_of_int n))] in
    n <- timer_count v;;
    if 0 <? n then
      n <- timer_count v;; me <- timer_stat SMean v;; n' <- timer_count v;; mx <- timer_stat SMax v;; mn <- timer_stat SMin v;;
      c <- timer_count v;; me' <- timer_stat SMean v;; sd <- timer_stat SStdDev v;;
      let t := [("name", LS (name ++ ".timer.mean")); ("count", LU (wrapu64 n)); ("sum", LF (fmul (rv_f me) (f_of_int n'))); ("max", LF (f_of_int (rv_z mx))); ("min", LF (f_of_int (rv_z mn)));
                ("sum_squares", LF (sum_squares c (rv_f me') (rv_f sd))); ("period", whole_period); ("attributes", LA (timer_attributes self))] in
      gs <- timer_gauges name v (percentiles self);;
      r1 <- timer_rate RK1 v;; r5 <- timer_rate RK5 v;; r15 <- timer_rate RK15 v;;
      ret ((t :: gs ++ [rate_gauge (name ++ ".rate.1min") r1; rate_gauge (name ++ ".rate.5min") r5; rate_gauge (name ++ ".rate.15min") r15])%list, [counter])
    else ret ([], [counter])
  | _ => ret ([], [])
  end.
Fixpoint measure_each (es : list (string * val)) : M (list measurement * list measurement) :=
  match es with
  | [] => ret ([], [])
  | (name, v) :: r =>
    '(g, c) <- measure name v;;
    '(gs, cs) <- measure_each r;;
    ret ((g ++ gs)%list, (c ++ cs)%list)
  end.
(** librato.go:82-235; err is always nil *)
Definition build_request (now : Z) (r : val) : M batch :=
  q <- lift (go_div (unix now) (interval_sec self));;
  let time := wrap64 (q * interval_sec self) in
  es <- reg_each r;;
  '(gs, cs) <- measure_each es;;
  ret (MkBatch gs cs time (source self)).
End Reporter.
End Librato.
