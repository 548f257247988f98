(** Reports while the rest of the process goes on.

    In Report.v, Librato.v and World.v (GetAll) a report is one step.  Here it is a goroutine
    that calls the API, one call after the other; before each call the rest of the process
    makes any number of calls of its own.  Calls of the API are atomic (C68 is about that).
    The values the report gets hold of are appended to those of the process, which thus may
    use them too; the real process cannot, it does not know them.

    Simplifications.  What the report does besides calling the API (formatting, writing) is
    done at its end.  The time printed is read before all else (graphite.go:60,
    opentsdb.go:63), so it is a parameter. *)
From Coq Require Import ZArith List String Bool.
From Verif.Model Require Import GoInt GoFloat GoBase World Report.
Import ListNotations.
Local Open Scope string_scope.
Local Open Scope Z_scope.

(** what the rest of the process does before the report's next call, and what that call sees
    of clocks, random numbers and map orders *)
Definition gap : Type := list (op * orc) * orc.

Section Live.
Variable mexp : f64 -> f64.

(** An execution, as far as the gaps reach.  [acted]: the states in which the report made its
    calls.  [outcome]: [None] if the gaps ended before the report did. *)
Record exec (A : Type) := MkExec { left : list gap; acted : list state; at_end : state; outcome : option (res A) }.
Arguments MkExec {A}. Arguments left {A}. Arguments acted {A}. Arguments at_end {A}. Arguments outcome {A}.
Definition L (A : Type) : Type := list gap -> state -> exec A.
Definition lret {A} (a : A) : L A := fun g st => MkExec g [] st (Some (Ok a)).
Definition lres {A} (r : res A) : L A := fun g st => MkExec g [] st (Some r).
Definition lbind {A B} (m : L A) (f : A -> L B) : L B := fun g st =>
  let r := m g st in
  match outcome r with
  | Some (Ok a) => let r2 := f a (left r) (at_end r) in MkExec (left r2) (acted r ++ acted r2)%list (at_end r2) (outcome r2)
  | Some (Panic msg) => MkExec (left r) (acted r) (at_end r) (Some (Panic msg))
  | None => MkExec (left r) (acted r) (at_end r) None
  end.
Notation "x <~ m ;; f" := (lbind m (fun x => f)) (at level 61, m at next level, right associativity).
(** one call: the place of the first value it returns, and its result *)
Definition call (c : op) : L (nat * rv) := fun g st =>
  match g with
  | [] => MkExec [] [] st None
  | (q, o) :: g' =>
    let st1 := run mexp st q in
    match step mexp st1 (c, o) with
    | (st2, Some (Ok r)) => MkExec g' [st1] st2 (Some (Ok (List.length (snd st1), r)))
    | (st2, Some (Panic msg)) => MkExec g' [st1] st2 (Some (Panic msg))
    | (st2, None) => MkExec g' [st1] st2 (Some (Panic msg_nil))
    end
  end.
Definition ask_z (c : op) : L Z := r <~ call c;; lret (rv_z (snd r)).
Definition ask_f (c : op) : L f64 := r <~ call c;; lret (rv_f (snd r)).
Definition rv_fs (r : rv) : list f64 := match r with RFs l => l | _ => [] end.
Definition rv_err (r : rv) : option err := match r with RErr e => e | _ => None end.
Definition rv_pairs (r : rv) : list (string * val) := match r with RPairs l => l | _ => [] end.
(** the dynamic type of the value at [x] *)
Definition kind_at (x : nat) : L class := fun g st => MkExec g [] st (Some (Ok (match nth_error (snd st) x with Some v => cls v | None => CNone end))).

(** ** A metric: as [read_metric] of Report.v; graphite.go:66-110, opentsdb.go:70-116,
    writer.go:28-82, log.go:42-99, syslog.go:19-77, stathat.go:22-66 *)
Definition live_read (health : bool) (ps : list f64) (x : nat) : L (option reading) :=
  k <~ kind_at x;;
  match k with
  | CCounter => n <~ ask_z (OCount x);; lret (Some (RdCounter n))
  | CGauge => n <~ ask_z (OValue x);; lret (Some (RdGauge n))
  | CGaugeF => y <~ ask_f (OValue x);; lret (Some (RdGaugeF y))
  | CHealth => if health then _ <~ call (OCheck x);; e <~ call (OError x);; lret (Some (RdHealth (rv_err (snd e)))) else lret None
  | CHist =>
    h <~ call (OSnapshot x);; let h := fst h in
    q <~ call (OPercentiles h ps);;
    n <~ ask_z (OCount h);; mn <~ ask_z (OStat h SMin);; mx <~ ask_z (OStat h SMax);; me <~ ask_f (OStat h SMean);; sd <~ ask_f (OStat h SStdDev);;
    lret (Some (RdHist n mn mx me sd (rv_fs (snd q))))
  | CMeter =>
    m <~ call (OSnapshot x);; let m := fst m in
    n <~ ask_z (OCount m);; r1 <~ ask_f (OMRate m RK1);; r5 <~ ask_f (OMRate m RK5);; r15 <~ ask_f (OMRate m RK15);; rm <~ ask_f (OMRate m RKMean);;
    lret (Some (RdMeter n r1 r5 r15 rm))
  | CTimer =>
    t <~ call (OSnapshot x);; let t := fst t in
    q <~ call (OPercentiles t ps);;
    n <~ ask_z (OCount t);; mn <~ ask_z (OStat t SMin);; mx <~ ask_z (OStat t SMax);; me <~ ask_f (OStat t SMean);; sd <~ ask_f (OStat t SStdDev);;
    r1 <~ ask_f (OMRate t RK1);; r5 <~ ask_f (OMRate t RK5);; r15 <~ ask_f (OMRate t RK15);; rm <~ ask_f (OMRate t RKMean);;
    lret (Some (RdTimer n mn mx me sd (rv_fs (snd q)) r1 r5 r15 rm))
  | _ => lret None
  end.

(** ** All metrics *)
Section Visit.
Context {A : Type}.
Variable visit : string -> nat -> L (list A).
Fixpoint live_each (es : list (string * nat)) : L (list A) :=
  match es with
  | [] => lret []
  | (name, x) :: r => a <~ visit name x;; rest <~ live_each r;; lret (a ++ rest)%list
  end.
(** the names with the places of their metrics *)
Fixpoint places (n : nat) (es : list (string * val)) : list (string * nat) :=
  match es with [] => [] | (name, _) :: r => (name, n) :: places (S n) r end.
(** r.Each; writer.go:20-26 first sorts what it visits ([arrange]) *)
Definition live_visit (arrange : list (string * nat) -> list (string * nat)) (r : nat) : L (list A) :=
  es <~ call (OEach r);; live_each (arrange (places (fst es) (rv_pairs (snd es)))).
End Visit.
Definition live_report {A} (health : bool) (ps : list f64) (render : string -> reading -> res (list A)) (arrange : list (string * nat) -> list (string * nat)) (r : nat) : L (list A) :=
  live_visit (fun name x => d <~ live_read health ps x;; match d with Some d => lres (render name d) | None => lret [] end) arrange r.
Definition live_text {A} (f : list A -> string) (m : L (list A)) : L string := ls <~ m;; lret (f ls).
Definition as_it_is (l : list (string * nat)) : list (string * nat) := l.

(** graphite.go:57-113 *)
Definition live_graphite (format_float : f64 -> string) (prefix : string) (unit_ : Z) (ps : list f64) (now : Z) (r : nat) : L string :=
  live_text text (live_report false ps (fun name d => res_bind (graphite_fields format_float unit_ ps d) (fun fs => Ok (map (graphite_line prefix name now) fs))) as_it_is r).
(** opentsdb.go:60-119 *)
Definition live_opentsdb (host prefix : string) (unit_ : Z) (now : Z) (r : nat) : L string :=
  live_text text (live_report false ps5 (fun name d => res_bind (opentsdb_fields unit_ d) (fun fs => Ok (map (opentsdb_line prefix name (short_hostname host) now) fs))) as_it_is r).
(** writer.go:20-84, log.go:37-100, syslog.go:13-78, stathat.go:20-69 *)
Definition live_write (error_text : Z -> string) (sort : list (string * nat) -> list (string * nat)) (r : nat) : L string :=
  live_text text (live_report true ps5 (write_lines error_text) sort r).
Definition live_log (error_text : Z -> string) (scale : Z) (r : nat) : L (list string) := live_report true ps5 (log_lines error_text scale (log_suffix scale)) as_it_is r.
Definition live_syslog (error_text : Z -> string) (r : nat) : L (list string) := live_report true ps5 (syslog_lines error_text) as_it_is r.
Definition live_stathat (r : nat) : L (list post) := live_report false ps5 stathat_posts as_it_is r.

(** ** GetAll (registry.go:127-183), also what the JSON export encodes *)
Definition getall_fields (d : reading) : list (string * gval) :=
  match d with
  | RdCounter n => [("count", GZ n)]
  | RdGauge n => [("value", GZ n)]
  | RdGaugeF x => [("value", GF x)]
  | RdHealth e => [("error", GE e)]
  | RdHist n mn mx me sd ps => dist_fields n (RZ mn) (RZ mx) (RF me) (RF sd) ps
  | RdMeter n r1 r5 r15 rm => ("count", GZ n) :: rate_fields r1 r5 r15 rm
  | RdTimer n mn mx me sd ps r1 r5 r15 rm => (dist_fields n (RZ mn) (RZ mx) (RF me) (RF sd) ps ++ rate_fields r1 r5 r15 rm)%list
  end.
(** registry.go:138-143: [if err := metric.Error(); nil != err] asks once, and
    [metric.Error().Error()] asks again *)
Definition live_get_all_one (x : nat) : L (list (string * gval)) :=
  k <~ kind_at x;;
  match k with
  | CHealth =>
    _ <~ call (OCheck x);; e <~ call (OError x);;
    match rv_err (snd e) with
    | None => lret [("error", GE None)]
    | Some _ => e <~ call (OError x);; match rv_err (snd e) with Some e => lret [("error", GE (Some e))] | None => lres (Panic msg_nil) end
    end
  | _ => d <~ live_read true ps5 x;; lret (match d with Some d => getall_fields d | None => [] end)
  end.
Definition live_get_all (r : nat) : L (list (string * list (string * gval))) :=
  live_visit (fun name x => fs <~ live_get_all_one x;; lret [(name, fs)]) as_it_is r.

(** ** Librato: the histogram of librato.go:119-135, which it reads without a snapshot: the
    part of the measurement that comes from the sample, and the percentiles *)
Record hist_measure := MkHM { hm_count : Z; hm_max : Z; hm_min : Z; hm_sum : Z; hm_percentiles : list f64 }.
Fixpoint live_percentiles (s : nat) (ps : list f64) : L (list f64) :=
  match ps with
  | [] => lret []
  | p :: r => q <~ ask_f (OPercentile s p);; rest <~ live_percentiles s r;; lret (q :: rest)
  end.
Definition live_librato_hist (ps : list f64) (x : nat) : L (option hist_measure) :=
  n <~ ask_z (OCount x);;
  if 0 <? n then
    s <~ call (OSample x);; let s := fst s in
    n <~ ask_z (OCount s);; mx <~ ask_z (OStat s SMax);; mn <~ ask_z (OStat s SMin);; sm <~ ask_z (OStat s SSum);;
    _ <~ ask_z (OCount s);; _ <~ ask_f (OStat s SMean);; _ <~ ask_f (OStat s SStdDev);;
    qs <~ live_percentiles s ps;;
    lret (Some (MkHM (wrapu64 n) mx mn sm qs))
  else lret None.
End Live.
Arguments MkExec {A}. Arguments left {A}. Arguments acted {A}. Arguments at_end {A}. Arguments outcome {A}.
