(** The reporters: graphite.go, opentsdb.go, writer.go, log.go, syslog.go,
    stathat/stathat.go.  (json.go, exp/exp.go and librato/ are in Json.v, Expvar.v
    and Librato.v.)

    Simplifications.  One call of the function that makes one report (the endless
    ticker loops around it are not modelled).  The connection is open and writing
    to it succeeds; what is written is the result, which is lost when the report
    panics.  Nothing else runs in the meantime.  The text of an error and
    strconv.FormatFloat(x, 'f', -1, 64) are parameters. *)
From Coq Require Import ZArith List String Ascii Bool.
From Verif.Model Require Import GoInt GoFloat GoBase World Fmt Duration.
Import ListNotations.
Open Scope string_scope.
Open Scope Z_scope.
Open Scope world_scope.

(** ** What the reporters read of a metric *)
Inductive reading :=
| RdCounter (n : Z)
| RdGauge (n : Z)
| RdGaugeF (x : f64)
| RdHealth (e : option err)
| RdHist (n mn mx : Z) (mean sd : f64) (ps : list f64)
| RdMeter (n : Z) (r1 r5 r15 mean : f64)
| RdTimer (n mn mx : Z) (mean sd : f64) (ps : list f64) (r1 r5 r15 rate : f64).
Definition rv_z (r : rv) : Z := match r with RZ n => n | _ => 0 end.
Definition rv_f (r : rv) : f64 := match r with RF x => x | _ => f_zero end.
(** The type switch and the calls on the metric, common to graphite.go:67-109,
    opentsdb.go:71-115, writer.go:28-82, log.go:43-97, syslog.go:16-75,
    stathat.go:22-66.  Only some reporters have a case for Healthcheck ([health]).
    The code calls the accessors of a snapshot between its Fprintf calls; nothing
    else holds the snapshot, so here they are called together. *)
Definition read_metric (health : bool) (ps : list f64) (v : val) : M (option reading) :=
  match cls v with
  | CCounter => n <- counter_count v;; ret (Some (RdCounter n))
  | CGauge => n <- gauge_value v;; ret (Some (RdGauge n))
  | CGaugeF => x <- gaugef_value v;; ret (Some (RdGaugeF x))
  | CHealth => if health then health_check v;; e <- health_error v;; ret (Some (RdHealth e)) else ret None
  | CHist =>
    h <- hist_snapshot v;; q <- hist_percentiles ps h;;
    n <- hist_count h;; mn <- hist_stat SMin h;; mx <- hist_stat SMax h;; me <- hist_stat SMean h;; sd <- hist_stat SStdDev h;;
    ret (Some (RdHist n (rv_z mn) (rv_z mx) (rv_f me) (rv_f sd) q))
  | CMeter =>
    m <- meter_snapshot v;;
    n <- meter_count m;; r1 <- meter_rate RK1 m;; r5 <- meter_rate RK5 m;; r15 <- meter_rate RK15 m;; rm <- meter_rate RKMean m;;
    ret (Some (RdMeter n r1 r5 r15 rm))
  | CTimer =>
    t <- timer_snapshot v;; q <- timer_percentiles ps t;;
    n <- timer_count t;; mn <- timer_stat SMin t;; mx <- timer_stat SMax t;; me <- timer_stat SMean t;; sd <- timer_stat SStdDev t;;
    r1 <- timer_rate RK1 t;; r5 <- timer_rate RK5 t;; r15 <- timer_rate RK15 t;; rm <- timer_rate RKMean t;;
    ret (Some (RdTimer n (rv_z mn) (rv_z mx) (rv_f me) (rv_f sd) q r1 r5 r15 rm))
  | _ => ret None
  end.
(** the callback on one metric after another; [render] is what a reporter makes of a
    reading *)
Fixpoint report_each {A} (health : bool) (ps : list f64) (render : string -> reading -> res (list A)) (es : list (string * val)) : M (list A) :=
  match es with
  | [] => ret []
  | (name, v) :: r =>
    d <- read_metric health ps v;;
    a <- match d with Some d => lift (render name d) | None => ret [] end;;
    rest <- report_each health ps render r;;
    ret (a ++ rest)%list
  end.
(** r.Each(callback) *)
Definition report {A} (health : bool) (ps : list f64) (render : string -> reading -> res (list A)) (r : val) : M (list A) :=
  es <- reg_each r;; report_each health ps render es.

(** a number with the verb it is printed with: %d or %.kf *)
Inductive num := NInt (n : Z) | NFix (k : nat) (x : f64).
Definition fmt_num (n : num) : string := match n with NInt n => fmt_d n | NFix k x => fmt_f k x end.
(** time.Now().Unix() *)
Definition unix (now : Z) : Z := now / 10 ^ 9.
(** a / b for int64 *)
Definition go_div (a b : Z) : res Z := if b =? 0 then Panic msg_div0 else Ok (wrap64 (Z.quot a b)).
Definition text (l : list string) : string := String.concat "" l.

(** ** graphite.go *)
Section Graphite.
(** strconv.FormatFloat(x, 'f', -1, 64) *)
Variable format_float : f64 -> string.

(** strings.Replace(s, ".", "", 1) *)
Fixpoint drop_point (s : string) : string :=
  match s with
  | "" => ""
  | String c r => if Ascii.eqb c "."%char then r else String c (drop_point r)
  end.
(** graphite.go:83, 102: key, for psKey*100.0 *)
Definition percentile_key (p : f64) : string := drop_point (format_float (fmul p (f_of_int 100))).
(** graphite.go:82-85, 101-104.  (ps[psIdx] exists: Percentiles returns one score per
    argument.) *)
Fixpoint percentile_fields (keys : list f64) (scores : list f64) : list (string * num) :=
  match keys, scores with
  | k :: keys', s :: scores' => (percentile_key k ++ "-percentile", NFix 2 s) :: percentile_fields keys' scores'
  | _, _ => []
  end.
(** graphite.go:67-109: the fields of one metric *)
Definition graphite_fields (unit_ : Z) (keys : list f64) (d : reading) : res (list (string * num)) :=
  let du := f_of_int unit_ in
  match d with
  | RdCounter n => Ok [("count", NInt n)]
  | RdGauge n => Ok [("value", NInt n)]
  | RdGaugeF x => Ok [("value", NFix 6 x)]
  | RdHealth _ => Ok []
  | RdHist n mn mx me sd ps =>
    Ok ([("count", NInt n); ("min", NInt mn); ("max", NInt mx); ("mean", NFix 2 me); ("std-dev", NFix 2 sd)] ++ percentile_fields keys ps)%list
  | RdMeter n r1 r5 r15 rm =>
    Ok [("count", NInt n); ("one-minute", NFix 2 r1); ("five-minute", NFix 2 r5); ("fifteen-minute", NFix 2 r15); ("mean", NFix 2 rm)]
  | RdTimer n mn mx me sd ps r1 r5 r15 rm =>
    res_bind (go_div mn (int_of_f du)) (fun mn' =>
    res_bind (go_div mx (int_of_f du)) (fun mx' =>
    Ok ([("count", NInt n); ("min", NInt mn'); ("max", NInt mx'); ("mean", NFix 2 (fdiv me du)); ("std-dev", NFix 2 (fdiv sd du))] ++
        percentile_fields keys ps ++
        [("one-minute", NFix 2 r1); ("five-minute", NFix 2 r5); ("fifteen-minute", NFix 2 r15); ("mean-rate", NFix 2 rm)])%list))
  end.
(** the format "%s.%s.field %d %d\n" *)
Definition graphite_line (prefix name : string) (now : Z) (f : string * num) : string :=
  prefix ++ "." ++ name ++ "." ++ fst f ++ " " ++ fmt_num (snd f) ++ " " ++ fmt_d now ++ newline.
(** graphite.go:57-113 *)
Definition graphite (prefix : string) (unit_ : Z) (percentiles : list f64) (r : val) : M string :=
  now <- ask (fun o => unix (o_now o));;
  ls <- report false percentiles (fun name d => res_bind (graphite_fields unit_ percentiles d) (fun fs => Ok (map (graphite_line prefix name now) fs))) r;;
  ret (text ls).
End Graphite.

(** ** opentsdb.go *)
Definition nth_f (i : nat) (l : list f64) : f64 := nth i l f_zero.
(** opentsdb.go:71-115.  (ps[0..4] exist: Percentiles returns one score per argument.) *)
Definition opentsdb_fields (unit_ : Z) (d : reading) : res (list (string * num)) :=
  let du := f_of_int unit_ in
  match d with
  | RdCounter n => Ok [("count", NInt n)]
  | RdGauge n => Ok [("value", NInt n)]
  | RdGaugeF x => Ok [("value", NFix 6 x)]
  | RdHealth _ => Ok []
  | RdHist n mn mx me sd ps =>
    Ok [("count", NInt n); ("min", NInt mn); ("max", NInt mx); ("mean", NFix 2 me); ("std-dev", NFix 2 sd);
        ("50-percentile", NFix 2 (nth_f 0 ps)); ("75-percentile", NFix 2 (nth_f 1 ps)); ("95-percentile", NFix 2 (nth_f 2 ps));
        ("99-percentile", NFix 2 (nth_f 3 ps)); ("999-percentile", NFix 2 (nth_f 4 ps))]
  | RdMeter n r1 r5 r15 rm =>
    Ok [("count", NInt n); ("one-minute", NFix 2 r1); ("five-minute", NFix 2 r5); ("fifteen-minute", NFix 2 r15); ("mean", NFix 2 rm)]
  | RdTimer n mn mx me sd ps r1 r5 r15 rm =>
    res_bind (go_div mn (int_of_f du)) (fun mn' =>
    res_bind (go_div mx (int_of_f du)) (fun mx' =>
    Ok [("count", NInt n); ("min", NInt mn'); ("max", NInt mx'); ("mean", NFix 2 (fdiv me du)); ("std-dev", NFix 2 (fdiv sd du));
        ("50-percentile", NFix 2 (fdiv (nth_f 0 ps) du)); ("75-percentile", NFix 2 (fdiv (nth_f 1 ps) du)); ("95-percentile", NFix 2 (fdiv (nth_f 2 ps) du));
        ("99-percentile", NFix 2 (fdiv (nth_f 3 ps) du)); ("999-percentile", NFix 2 (fdiv (nth_f 4 ps) du));
        ("one-minute", NFix 2 r1); ("five-minute", NFix 2 r5); ("fifteen-minute", NFix 2 r15); ("mean-rate", NFix 2 rm)]))
  end.
(** the format "put %s.%s.field %d %d host=%s\n" *)
Definition opentsdb_line (prefix name host : string) (now : Z) (f : string * num) : string :=
  "put " ++ prefix ++ "." ++ name ++ "." ++ fst f ++ " " ++ fmt_d now ++ " " ++ fmt_num (snd f) ++ " host=" ++ host ++ newline.
(** opentsdb.go:48-58: the host name up to the first dot, unless that is its first
    character *)
Fixpoint before_dot (s : string) : option string :=
  match s with
  | "" => None
  | String c r => if Ascii.eqb c "."%char then Some "" else option_map (String c) (before_dot r)
  end.
Definition short_hostname (host : string) : string :=
  match before_dot host with Some (String c s) => String c s | _ => host end.
(** opentsdb.go:60-119; [host] is what os.Hostname returned the first time *)
Definition opentsdb (host prefix : string) (unit_ : Z) (r : val) : M string :=
  now <- ask (fun o => unix (o_now o));;
  ls <- report false ps5 (fun name d => res_bind (opentsdb_fields unit_ d) (fun fs => Ok (map (opentsdb_line prefix name (short_hostname host) now) fs))) r;;
  ret (text ls).

(** ** writer.go *)
Section Writer.
(** the text of an error of the user's *)
Variable error_text : Z -> string.
(** %v of an error; registry.go:15-17 *)
Definition fmt_err (e : option err) : string :=
  match e with None => "<nil>" | Some (EDup n) => "duplicate metric: " ++ n | Some (EUser k) => error_text k end.
(** "label%wd\n" *)
Definition text_line (label : string) (w : nat) (n : num) : string := label ++ pad w (fmt_num n) ++ newline.
Definition text_rates (r1 r5 r15 rm : f64) : list string :=
  [text_line "  1-min rate:  " 12 (NFix 2 r1); text_line "  5-min rate:  " 12 (NFix 2 r5);
   text_line "  15-min rate: " 12 (NFix 2 r15); text_line "  mean rate:   " 12 (NFix 2 rm)].
Definition text_dist (n mn mx : Z) (me sd : f64) (ps : list f64) : list string :=
  [text_line "  count:       " 9 (NInt n); text_line "  min:         " 9 (NInt mn); text_line "  max:         " 9 (NInt mx);
   text_line "  mean:        " 12 (NFix 2 me); text_line "  stddev:      " 12 (NFix 2 sd); text_line "  median:      " 12 (NFix 2 (nth_f 0 ps));
   text_line "  75%:         " 12 (NFix 2 (nth_f 1 ps)); text_line "  95%:         " 12 (NFix 2 (nth_f 2 ps));
   text_line "  99%:         " 12 (NFix 2 (nth_f 3 ps)); text_line "  99.9%:       " 12 (NFix 2 (nth_f 4 ps))].
(** writer.go:28-82 *)
Definition write_lines (name : string) (d : reading) : res (list string) :=
  Ok match d with
  | RdCounter n => ["counter " ++ name ++ newline; text_line "  count:       " 9 (NInt n)]
  | RdGauge n => ["gauge " ++ name ++ newline; text_line "  value:       " 9 (NInt n)]
  | RdGaugeF x => ["gauge " ++ name ++ newline; text_line "  value:       " 0 (NFix 6 x)]
  | RdHealth e => ["healthcheck " ++ name ++ newline; "  error:       " ++ fmt_err e ++ newline]
  | RdHist n mn mx me sd ps => (("histogram " ++ name ++ newline)%string :: text_dist n mn mx me sd ps)
  | RdMeter n r1 r5 r15 rm => (("meter " ++ name ++ newline)%string :: text_line "  count:       " 9 (NInt n) :: text_rates r1 r5 r15 rm)
  | RdTimer n mn mx me sd ps r1 r5 r15 rm => (("timer " ++ name ++ newline)%string :: text_dist n mn mx me sd ps ++ text_rates r1 r5 r15 rm)%list
  end.
(** writer.go:20-84; [sort] is sort.Sort on namedMetrics *)
Definition write_once (sort : list (string * val) -> list (string * val)) (r : val) : M string :=
  es <- reg_each r;; ls <- report_each true ps5 write_lines (sort es);; ret (text ls).

(** ** log.go *)
(** log.go:37-100: the messages of one cue; [suffix] is duSuffix. *)
Definition log_time (label suffix : string) (x : f64) : string := label ++ pad 12 (fmt_f 2 x) ++ suffix ++ newline.
Definition log_lines (scale : Z) (suffix : string) (name : string) (d : reading) : res (list string) :=
  match d with
  | RdTimer n mn mx me sd ps r1 r5 r15 rm =>
    let du := f_of_int scale in
    Ok ((("timer " ++ name ++ newline)%string :: text_line "  count:       " 9 (NInt n) ::
         log_time "  min:         " suffix (fdiv (f_of_int mn) du) :: log_time "  max:         " suffix (fdiv (f_of_int mx) du) ::
         log_time "  mean:        " suffix (fdiv me du) :: log_time "  stddev:      " suffix (fdiv sd du) ::
         log_time "  median:      " suffix (fdiv (nth_f 0 ps) du) :: log_time "  75%:         " suffix (fdiv (nth_f 1 ps) du) ::
         log_time "  95%:         " suffix (fdiv (nth_f 2 ps) du) :: log_time "  99%:         " suffix (fdiv (nth_f 3 ps) du) ::
         log_time "  99.9%:       " suffix (fdiv (nth_f 4 ps) du) :: text_rates r1 r5 r15 rm))
  | _ => write_lines name d
  end.
(** log.go:39: duSuffix := scale.String()[1:].  (The string is never empty.) *)
Definition log_suffix (scale : Z) : string := tail (duration_string scale).
Definition log_once (scale : Z) (r : val) : M (list string) := report true ps5 (log_lines scale (log_suffix scale)) r.

(** ** syslog.go *)
Definition sys_dist (n mn mx : Z) (me sd : f64) (ps : list f64) : string :=
  ": count: " ++ fmt_d n ++ " min: " ++ fmt_d mn ++ " max: " ++ fmt_d mx ++ " mean: " ++ fmt_f 2 me ++ " stddev: " ++ fmt_f 2 sd ++
  " median: " ++ fmt_f 2 (nth_f 0 ps) ++ " 75%: " ++ fmt_f 2 (nth_f 1 ps) ++ " 95%: " ++ fmt_f 2 (nth_f 2 ps) ++
  " 99%: " ++ fmt_f 2 (nth_f 3 ps) ++ " 99.9%: " ++ fmt_f 2 (nth_f 4 ps).
(** syslog.go:13-78: one message per metric *)
Definition syslog_lines (name : string) (d : reading) : res (list string) :=
  Ok match d with
  | RdCounter n => ["counter " ++ name ++ ": count: " ++ fmt_d n]
  | RdGauge n => ["gauge " ++ name ++ ": value: " ++ fmt_d n]
  | RdGaugeF x => ["gauge " ++ name ++ ": value: " ++ fmt_f 6 x]
  | RdHealth e => ["healthcheck " ++ name ++ ": error: " ++ fmt_err e]
  | RdHist n mn mx me sd ps => ["histogram " ++ name ++ sys_dist n mn mx me sd ps]
  | RdMeter n r1 r5 r15 rm =>
    ["meter " ++ name ++ ": count: " ++ fmt_d n ++ " 1-min: " ++ fmt_f 2 r1 ++ " 5-min: " ++ fmt_f 2 r5 ++ " 15-min: " ++ fmt_f 2 r15 ++ " mean: " ++ fmt_f 2 rm]
  | RdTimer n mn mx me sd ps r1 r5 r15 rm =>
    ["timer " ++ name ++ sys_dist n mn mx me sd ps ++ " 1-min: " ++ fmt_f 2 r1 ++ " 5-min: " ++ fmt_f 2 r5 ++ " 15-min: " ++ fmt_f 2 r15 ++ " mean-rate: " ++ fmt_f 2 rm]
  end.
Definition syslog_once (r : val) : M (list string) := report true ps5 syslog_lines r.
End Writer.

(** ** stathat/stathat.go *)
(** PostEZCount(name, userkey, n) or PostEZValue(name, userkey, x) *)
Inductive post := PostCount (name : string) (n : Z) | PostValue (name : string) (x : f64).
Definition post_rates (name last : string) (r1 r5 r15 rm : f64) : list post :=
  [PostValue (name ++ ".one-minute") r1; PostValue (name ++ ".five-minute") r5; PostValue (name ++ ".fifteen-minute") r15; PostValue (name ++ last) rm].
Definition post_dist (name : string) (n mn mx : Z) (me sd : f64) (ps : list f64) : list post :=
  [PostCount (name ++ ".count") n; PostValue (name ++ ".min") (f_of_int mn); PostValue (name ++ ".max") (f_of_int mx);
   PostValue (name ++ ".mean") me; PostValue (name ++ ".std-dev") sd;
   PostValue (name ++ ".50-percentile") (nth_f 0 ps); PostValue (name ++ ".75-percentile") (nth_f 1 ps); PostValue (name ++ ".95-percentile") (nth_f 2 ps);
   PostValue (name ++ ".99-percentile") (nth_f 3 ps); PostValue (name ++ ".999-percentile") (nth_f 4 ps)].
(** stathat.go:20-69 *)
Definition stathat_posts (name : string) (d : reading) : res (list post) :=
  Ok match d with
  | RdCounter n => [PostCount name n]
  | RdGauge n => [PostValue name (f_of_int n)]
  | RdGaugeF x => [PostValue name x]
  | RdHealth _ => []
  | RdHist n mn mx me sd ps => post_dist name n mn mx me sd ps
  | RdMeter n r1 r5 r15 rm => PostCount (name ++ ".count") n :: post_rates name ".mean" r1 r5 r15 rm
  | RdTimer n mn mx me sd ps r1 r5 r15 rm => (post_dist name n mn mx me sd ps ++ post_rates name ".mean-rate" r1 r5 r15 rm)%list
  end.
Definition stathat (r : val) : M (list post) := report false ps5 stathat_posts r.
