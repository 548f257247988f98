(** runtime.go and debug.go: metrics about the Go runtime itself.  A process is a
    program using the API (World.v) together with the package variables of these
    two files.  CaptureRuntimeMemStats and CaptureDebugGCStats are in Loops.v.
    Simultaneous captures (the variables are not synchronized) are in RuntimeConc.v.
    Oracles: what runtime.ReadMemStats, runtime.NumCgoCall, runtime.NumGoroutine, the
    threadcreate profile and debug.ReadGCStats return, and the clock.  In builds without cgo
    numCgoCall is 0 (runtime_cgo.go, runtime_no_cgo.go), and before Go 1.5 gcCPUFraction is 0
    (runtime_gccpufraction.go, runtime_no_gccpufraction.go): these are the readings with 0 there.
    The metrics made by the Register functions are put among the values the program holds,
    although a program can reach only those it then finds in a registry: a program here can do
    more than a real one. *)
From Coq Require Import ZArith List String.
From Verif.Model Require Import GoInt GoFloat GoBase World.
Import ListNotations.
Local Open Scope string_scope.
Local Open Scope list_scope.
Local Open Scope Z_scope.

(** runtime.MemStats: the fields read.  uint64 unless noted *)
Record memstats := MkMem {
  ms_Alloc : Z; ms_BuckHashSys : Z; ms_DebugGC : bool; ms_EnableGC : bool; ms_Frees : Z;
  ms_HeapAlloc : Z; ms_HeapIdle : Z; ms_HeapInuse : Z; ms_HeapObjects : Z; ms_HeapReleased : Z; ms_HeapSys : Z;
  ms_LastGC : Z; ms_Lookups : Z; ms_Mallocs : Z; ms_MCacheInuse : Z; ms_MCacheSys : Z; ms_MSpanInuse : Z; ms_MSpanSys : Z;
  ms_NextGC : Z; ms_NumGC : Z (* uint32 *); ms_GCCPUFraction : f64; ms_PauseNs : list Z (* [256]uint64 *); ms_PauseTotalNs : Z;
  ms_StackInuse : Z; ms_StackSys : Z; ms_Sys : Z; ms_TotalAlloc : Z }.
(** what one capture reads *)
Record reading := MkReading { rd_mem : memstats; rd_cgo : Z (* int64 *); rd_goroutines : Z; rd_threads : Z (* int *) }.

(** the metrics, by the name of the variable's field *)
Inductive mk := MGauge | MGaugeF | MHist | MTimer.
(** runtime.go:152-182: what is created, in order *)
Definition rt_create : list (string * mk) :=
  [("Alloc", MGauge); ("BuckHashSys", MGauge); ("DebugGC", MGauge); ("EnableGC", MGauge); ("Frees", MGauge); ("HeapAlloc", MGauge);
   ("HeapIdle", MGauge); ("HeapInuse", MGauge); ("HeapObjects", MGauge); ("HeapReleased", MGauge); ("HeapSys", MGauge); ("LastGC", MGauge);
   ("Lookups", MGauge); ("Mallocs", MGauge); ("MCacheInuse", MGauge); ("MCacheSys", MGauge); ("MSpanInuse", MGauge); ("MSpanSys", MGauge);
   ("NextGC", MGauge); ("NumGC", MGauge); ("GCCPUFraction", MGaugeF); ("PauseNs", MHist); ("PauseTotalNs", MGauge); ("StackInuse", MGauge);
   ("StackSys", MGauge); ("Sys", MGauge); ("TotalAlloc", MGauge); ("NumCgoCall", MGauge); ("NumGoroutine", MGauge); ("NumThread", MGauge);
   ("ReadMemStats", MTimer)].
(** runtime.go:184-214: the names they are registered under *)
Definition rt_register : list (string * string) :=
  [("runtime.MemStats.Alloc", "Alloc"); ("runtime.MemStats.BuckHashSys", "BuckHashSys"); ("runtime.MemStats.DebugGC", "DebugGC");
   ("runtime.MemStats.EnableGC", "EnableGC"); ("runtime.MemStats.Frees", "Frees"); ("runtime.MemStats.HeapAlloc", "HeapAlloc");
   ("runtime.MemStats.HeapIdle", "HeapIdle"); ("runtime.MemStats.HeapInuse", "HeapInuse"); ("runtime.MemStats.HeapObjects", "HeapObjects");
   ("runtime.MemStats.HeapReleased", "HeapReleased"); ("runtime.MemStats.HeapSys", "HeapSys"); ("runtime.MemStats.LastGC", "LastGC");
   ("runtime.MemStats.Lookups", "Lookups"); ("runtime.MemStats.Mallocs", "Mallocs"); ("runtime.MemStats.MCacheInuse", "MCacheInuse");
   ("runtime.MemStats.MCacheSys", "MCacheSys"); ("runtime.MemStats.MSpanInuse", "MSpanInuse"); ("runtime.MemStats.MSpanSys", "MSpanSys");
   ("runtime.MemStats.NextGC", "NextGC"); ("runtime.MemStats.NumGC", "NumGC"); ("runtime.MemStats.GCCPUFraction", "GCCPUFraction");
   ("runtime.MemStats.PauseNs", "PauseNs"); ("runtime.MemStats.PauseTotalNs", "PauseTotalNs"); ("runtime.MemStats.StackInuse", "StackInuse");
   ("runtime.MemStats.StackSys", "StackSys"); ("runtime.MemStats.Sys", "Sys"); ("runtime.MemStats.TotalAlloc", "TotalAlloc");
   ("runtime.NumCgoCall", "NumCgoCall"); ("runtime.NumGoroutine", "NumGoroutine"); ("runtime.NumThread", "NumThread");
   ("runtime.ReadMemStats", "ReadMemStats")].
(** debug.go:60-65 and 67-72 *)
Definition dbg_create : list (string * mk) :=
  [("LastGC", MGauge); ("NumGC", MGauge); ("Pause", MHist); ("PauseTotal", MGauge); ("ReadGCStats", MTimer)].
Definition dbg_register : list (string * string) :=
  [("debug.GCStats.LastGC", "LastGC"); ("debug.GCStats.NumGC", "NumGC"); ("debug.GCStats.Pause", "Pause");
   ("debug.GCStats.PauseTotal", "PauseTotal"); ("debug.ReadGCStats", "ReadGCStats")].

(** the constructor calls, when the program holds [n] values so far, and where the metrics
    are held then.  0.015 is the float64 nearest to 15/1000 *)
Definition decay : f64 := fdiv (f_of_int 15) (f_of_int 1000).
Fixpoint creation (n : nat) (l : list (string * mk)) : list op * list (string * nat) :=
  match l with
  | [] => ([], [])
  | (f, k) :: r =>
    let '(cs, i) :=
      match k with
      | MGauge => ([ONew NGauge], n)
      | MGaugeF => ([ONew NGaugeF], n)
      | MHist => ([ONew (NExp 1028 decay); ONew (NHist n)], S n)   (* NewHistogram(NewExpDecaySample(1028, 0.015)) *)
      | MTimer => ([ONew NTimer], n)
      end in
    let '(cs', tab) := creation (S i) r in
    (cs ++ cs', (f, i) :: tab)
  end.
(** the metric of a field; [tab] is empty while the variables are nil *)
Fixpoint at_field (tab : list (string * nat)) (f : string) : nat :=
  match tab with [] => 0%nat | (g, i) :: r => if String.eqb g f then i else at_field r f end.
Definition registration (r : nat) (tab : list (string * nat)) (l : list (string * string)) : list op :=
  map (fun nf => ORegister r (fst nf) (at_field tab (snd nf))) l.

(** runtime.go:47-51 frees, lookups, mallocs, numGC, numCgoCalls *)
Record previous := MkPrev { pv_frees : Z; pv_lookups : Z; pv_mallocs : Z; pv_numGC : Z; pv_cgo : Z }.
Definition prev0 : previous := MkPrev 0 0 0 0 0.
(** unsigned subtraction *)
Definition sub64 (a b : Z) : Z := (a - b) mod 2 ^ 64.
Definition sub32 (a b : Z) : Z := (a - b) mod 2 ^ 32.
(** runtime.go:110-126: the values PauseNs is updated with *)
Definition segment (xs : list Z) (i ii : Z) : list Z :=   (* for ; i < ii; i++ { ...xs[i] } *)
  map (fun k => nth k xs 0) (seq (Z.to_nat i) (Z.to_nat (ii - i))).
Definition pauses (numGC : Z) (m : memstats) : list Z :=
  let n := 256 in
  let i := numGC mod n in
  let ii := ms_NumGC m mod n in
  map wrap64
    (if n <=? sub32 (ms_NumGC m) numGC then segment (ms_PauseNs m) 0 n
     else if ii <? i then segment (ms_PauseNs m) i n ++ segment (ms_PauseNs m) 0 ii
     else segment (ms_PauseNs m) i ii).
Definition of_bool (b : bool) : Z := if b then 1 else 0.
(** runtime.go:73-145: the calls of one capture; [t] is the time read first *)
Definition capture (f : string -> nat) (p : previous) (r : reading) (t : Z) : list op :=
  let m := rd_mem r in
  [OUpdateSince (f "ReadMemStats") t;
   OUpdate (f "Alloc") (wrap64 (ms_Alloc m));
   OUpdate (f "BuckHashSys") (wrap64 (ms_BuckHashSys m));
   OUpdate (f "DebugGC") (of_bool (ms_DebugGC m));
   OUpdate (f "EnableGC") (of_bool (ms_EnableGC m));
   OUpdate (f "Frees") (wrap64 (sub64 (ms_Frees m) (pv_frees p)));
   OUpdate (f "HeapAlloc") (wrap64 (ms_HeapAlloc m));
   OUpdate (f "HeapIdle") (wrap64 (ms_HeapIdle m));
   OUpdate (f "HeapInuse") (wrap64 (ms_HeapInuse m));
   OUpdate (f "HeapObjects") (wrap64 (ms_HeapObjects m));
   OUpdate (f "HeapReleased") (wrap64 (ms_HeapReleased m));
   OUpdate (f "HeapSys") (wrap64 (ms_HeapSys m));
   OUpdate (f "LastGC") (wrap64 (ms_LastGC m));
   OUpdate (f "Lookups") (wrap64 (sub64 (ms_Lookups m) (pv_lookups p)));
   OUpdate (f "Mallocs") (wrap64 (sub64 (ms_Mallocs m) (pv_mallocs p)));
   OUpdate (f "MCacheInuse") (wrap64 (ms_MCacheInuse m));
   OUpdate (f "MCacheSys") (wrap64 (ms_MCacheSys m));
   OUpdate (f "MSpanInuse") (wrap64 (ms_MSpanInuse m));
   OUpdate (f "MSpanSys") (wrap64 (ms_MSpanSys m));
   OUpdate (f "NextGC") (wrap64 (ms_NextGC m));
   OUpdate (f "NumGC") (sub32 (ms_NumGC m) (pv_numGC p));
   OUpdateF (f "GCCPUFraction") (ms_GCCPUFraction m)]
  ++ map (OUpdate (f "PauseNs")) (pauses (pv_numGC p) m) ++
  [OUpdate (f "PauseTotalNs") (wrap64 (ms_PauseTotalNs m));
   OUpdate (f "StackInuse") (wrap64 (ms_StackInuse m));
   OUpdate (f "StackSys") (wrap64 (ms_StackSys m));
   OUpdate (f "Sys") (wrap64 (ms_Sys m));
   OUpdate (f "TotalAlloc") (wrap64 (ms_TotalAlloc m));
   OUpdate (f "NumCgoCall") (wrap64 (rd_cgo r - pv_cgo p));
   OUpdate (f "NumGoroutine") (rd_goroutines r);
   OUpdate (f "NumThread") (rd_threads r)].
(** runtime.go:127-130 and 140 *)
Definition remember (r : reading) : previous :=
  MkPrev (ms_Frees (rd_mem r)) (ms_Lookups (rd_mem r)) (ms_Mallocs (rd_mem r)) (ms_NumGC (rd_mem r)) (rd_cgo r).

(** debug.GCStats after debug.ReadGCStats: LastGC is time.Unix(0, ns); Pause has the latest
    pause first (durations) *)
Record gcstats := MkGc { gc_LastGC : Z; gc_NumGC : Z; gc_PauseTotal : Z; gc_Pause : list Z }.
(** debug.go:40-53; [last] is LastGC before, [None] for the zero time (which is no time.Unix(0, ns)) *)
Definition dbg_capture (f : string -> nat) (last : option Z) (g : gcstats) (t : Z) : list op :=
  [OUpdateSince (f "ReadGCStats") t; OUpdate (f "LastGC") (gc_LastGC g); OUpdate (f "NumGC") (gc_NumGC g)]
  ++ (if match last with Some n => n =? gc_LastGC g | None => false end then []
      else match gc_Pause g with [] => [] | p :: _ => [OUpdate (f "Pause") p] end)
  ++ [OUpdate (f "PauseTotal") (gc_PauseTotal g)].

(** ** Processes *)
Record proc := MkProc {
  p_state : state;
  rt_done : bool; rt_tab : list (string * nat); rt_prev : previous;      (* runtime.go:10-55 *)
  dbg_done : bool; dbg_tab : list (string * nat); dbg_last : option Z }. (* debug.go:9-22; gcStats.LastGC *)
Definition proc_init : proc := MkProc state_init false [] prev0 false [] None.
Inductive pop :=
| PApi (c : op)
| PRegisterRuntime (r : option nat) | PCaptureRuntime (r : option nat) (x : reading)
| PRegisterDebug (r : option nat) | PCaptureDebug (r : option nat) (g : gcstats).   (* None: nil *)

Section Exp.
Variable mexp : f64 -> f64.

(** API calls in order, until one panics; the oracle of the n-th is [os n] *)
Fixpoint exec (st : state) (cs : list op) (os : nat -> orc) : state * option string :=
  match cs with
  | [] => (st, None)
  | c :: r =>
    match step mexp st (c, os 0%nat) with
    | (st', Some (Panic m)) => (st', Some m)
    | (st', _) => exec st' r (fun n => os (S n))
    end
  end.
Definition outcome_of (m : option string) : res rv := match m with Some s => Panic s | None => Ok RUnit end.
(** what is passed as a Registry: nil, or a registry the program holds *)
Definition is_registry (e : env) (r : option nat) : bool :=
  match r with None => true | Some x => match arg e CReg x with Some _ => true | None => false end end.
(** runtime.go:150-216, debug.go:58-74: sync.Once runs its argument the first time Do is
    called, even if it panics.  Gives the new state and table *)
Definition register_all (st : state) (cr : list (string * mk)) (names : list (string * string)) (r : option nat) (os : nat -> orc) : state * list (string * nat) * option string :=
  let '(cs, tab) := creation (List.length (snd st)) cr in
  match exec st cs os with
  | (st1, Some m) => (st1, tab, Some m)
  | (st1, None) =>
    match r with
    | None => (st1, tab, Some msg_nil)
    | Some x => let '(st2, m) := exec st1 (registration x tab names) (fun n => os (n + List.length cs)%nat) in (st2, tab, m)
    end
  end.
(** one call.  A capture with nil variables panics at the first method call, after reading
    the statistics *)
Definition pstep (s : proc) (co : pop * (nat -> orc)) : proc * option (res rv) :=
  let os := snd co in
  match fst co with
  | PApi c => let '(st, r) := step mexp (p_state s) (c, os 0%nat) in
      (MkProc st (rt_done s) (rt_tab s) (rt_prev s) (dbg_done s) (dbg_tab s) (dbg_last s), r)
  | PRegisterRuntime r =>
      if negb (is_registry (snd (p_state s)) r) then (s, None) else
      if rt_done s then (s, Some (Ok RUnit)) else
      let '(st, tab, m) := register_all (p_state s) rt_create rt_register r os in
      (MkProc st true tab (rt_prev s) (dbg_done s) (dbg_tab s) (dbg_last s), Some (outcome_of m))
  | PRegisterDebug r =>
      if negb (is_registry (snd (p_state s)) r) then (s, None) else
      if dbg_done s then (s, Some (Ok RUnit)) else
      let '(st, tab, m) := register_all (p_state s) dbg_create dbg_register r os in
      (MkProc st (rt_done s) (rt_tab s) (rt_prev s) true tab (dbg_last s), Some (outcome_of m))
  | PCaptureRuntime r x =>
      if negb (is_registry (snd (p_state s)) r) then (s, None) else
      match rt_tab s with
      | [] => (s, Some (Panic msg_nil))
      | tab =>
        let '(st, m) := exec (p_state s) (capture (at_field tab) (rt_prev s) x (o_now (os 0%nat))) (fun n => os (S n)) in
        (MkProc st (rt_done s) tab (match m with None => remember x | Some _ => rt_prev s end) (dbg_done s) (dbg_tab s) (dbg_last s), Some (outcome_of m))
      end
  | PCaptureDebug r g =>
      if negb (is_registry (snd (p_state s)) r) then (s, None) else
      match dbg_tab s with
      | [] => (MkProc (p_state s) (rt_done s) (rt_tab s) (rt_prev s) (dbg_done s) [] (Some (gc_LastGC g)), Some (Panic msg_nil))
      | tab =>
        let '(st, m) := exec (p_state s) (dbg_capture (at_field tab) (dbg_last s) g (o_now (os 0%nat))) (fun n => os (S n)) in
        (MkProc st (rt_done s) (rt_tab s) (rt_prev s) (dbg_done s) tab (Some (gc_LastGC g)), Some (outcome_of m))
      end
  end.
Definition prun (s : proc) (h : list (pop * (nat -> orc))) : proc := fold_left (fun s co => fst (pstep s co)) h s.
End Exp.
