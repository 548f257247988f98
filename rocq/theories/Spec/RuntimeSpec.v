(** Specification of the runtime and debug metrics: what every gauge shows, which
    garbage collections' pauses a capture records. *)
From Coq Require Import ZArith List String Bool.
From Verif.Model Require Import GoInt GoFloat GoBase ExpDecay World Runtime.
From Verif.Spec Require Import RegistrySpec.
Import ListNotations.
Local Open Scope string_scope.
Local Open Scope list_scope.
Local Open Scope Z_scope.

(** ** Histories of processes *)
Definition history := list (pop * (nat -> orc)).
Section Exp.
Variable mexp : f64 -> f64.
Definition preach (h : history) : proc := prun mexp proc_init h.
(** the outcome of one more call *)
Definition result (h : history) (c : pop) (os : nat -> orc) : option (res rv) := snd (pstep mexp (preach h) (c, os)).
(** the process after one more call *)
Definition next (h : history) (c : pop) (os : nat -> orc) : proc := preach (h ++ [(c, os)]).

(** statistics read by the captures which returned, the latest first *)
Fixpoint captured (s : proc) (h : history) (acc : list reading) : list reading :=
  match h with
  | [] => acc
  | co :: r =>
    captured (fst (pstep mexp s co)) r
      (match fst co, snd (pstep mexp s co) with PCaptureRuntime _ x, Some (Ok _) => x :: acc | _, _ => acc end)
  end.
Definition last_capture (h : history) : option reading := hd_error (captured proc_init h []).
(** statistics read by the debug captures, whether or not they panicked *)
Fixpoint gc_captured (s : proc) (h : history) (acc : list gcstats) : list gcstats :=
  match h with
  | [] => acc
  | co :: r =>
    gc_captured (fst (pstep mexp s co)) r
      (match fst co, snd (pstep mexp s co) with PCaptureDebug _ x, Some _ => x :: acc | _, _ => acc end)
  end.
Definition last_gc_capture (h : history) : option gcstats := hd_error (gc_captured proc_init h []).

(** calls of the Register functions *)
Definition no_registration (h : history) : Prop := forall r os, ~ In (PRegisterRuntime r, os) h.
Definition no_debug_registration (h : history) : Prop := forall r os, ~ In (PRegisterDebug r, os) h.
Definition was_registered (h : history) : Prop :=
  exists h1 r os h2, h = h1 ++ (PRegisterRuntime r, os) :: h2 /\ result h1 (PRegisterRuntime r) os <> None.
Definition was_debug_registered (h : history) : Prop :=
  exists h1 r os h2, h = h1 ++ (PRegisterDebug r, os) :: h2 /\ result h1 (PRegisterDebug r) os <> None.

(** [g] is the metric the first registration (with real metrics) put under a name that was free *)
Definition looked_up (s : proc) (x : nat) (name : string) (o : orc) (g : val) : Prop :=
  snd (step mexp (p_state s) (OGet x name, o)) = Some (Ok (RVal g)).
Definition put_by (reg : option nat -> pop) (no : history -> Prop) (h : history) (name : string) (g : val) : Prop :=
  exists h1 x os h2 o,
    h = h1 ++ (reg (Some x), os) :: h2 /\ no h1 /\ usenil (fst (p_state (preach h1))) = false /\
    looked_up (preach h1) x name o VNil /\ looked_up (next h1 (reg (Some x)) os) x name o g.
Definition runtime_metric := put_by PRegisterRuntime no_registration.
Definition debug_metric := put_by PRegisterDebug no_debug_registration.

(** the value of the gauge held at [x] *)
Definition shown (s : proc) (x : nat) (o : orc) : option (res rv) := snd (step mexp (p_state s) (OValue x, o)).
(** the values shown after every capture that returns *)
Fixpoint shown_after (s : proc) (h : history) (x : nat) : list Z :=
  match h with
  | [] => []
  | co :: r =>
    let s' := fst (pstep mexp s co) in
    match fst co, snd (pstep mexp s co) with
    | PCaptureRuntime _ _, Some (Ok _) => match shown s' x (snd co 0%nat) with Some (Ok (RZ n)) => [n] | _ => [] end
    | _, _ => []
    end ++ shown_after s' r x
  end.
End Exp.

(** ** Gauges *)
Definition as_int64 (z : Z) : Z := (z + 2 ^ 63) mod 2 ^ 64 - 2 ^ 63.
(** a statistic at the previous capture: 0 if there was none *)
Definition before (prev : option reading) (stat : reading -> Z) : Z := match prev with Some r => stat r | None => 0 end.
Definition uint64_deltas : list (string * (reading -> Z)) :=
  [("runtime.MemStats.Frees", fun r => ms_Frees (rd_mem r)); ("runtime.MemStats.Lookups", fun r => ms_Lookups (rd_mem r));
   ("runtime.MemStats.Mallocs", fun r => ms_Mallocs (rd_mem r)); ("runtime.NumCgoCall", rd_cgo)].
Definition numGC (r : reading) : Z := ms_NumGC (rd_mem r).
Definition delta_gauges (prev : option reading) (r : reading) : list (string * Z) :=
  map (fun nf => (fst nf, as_int64 (snd nf r - before prev (snd nf)))) uint64_deltas ++
  [("runtime.MemStats.NumGC", (numGC r - before prev numGC) mod 2 ^ 32)].
Definition plain_gauges (r : reading) : list (string * Z) :=
  let m := rd_mem r in
  map (fun nz => ("runtime.MemStats." ++ fst nz, as_int64 (snd nz))%string)
    [("Alloc", ms_Alloc m); ("TotalAlloc", ms_TotalAlloc m); ("Sys", ms_Sys m);
     ("HeapAlloc", ms_HeapAlloc m); ("HeapSys", ms_HeapSys m); ("HeapIdle", ms_HeapIdle m); ("HeapInuse", ms_HeapInuse m);
     ("HeapReleased", ms_HeapReleased m); ("HeapObjects", ms_HeapObjects m);
     ("StackInuse", ms_StackInuse m); ("StackSys", ms_StackSys m); ("MSpanInuse", ms_MSpanInuse m); ("MSpanSys", ms_MSpanSys m);
     ("MCacheInuse", ms_MCacheInuse m); ("MCacheSys", ms_MCacheSys m); ("BuckHashSys", ms_BuckHashSys m);
     ("NextGC", ms_NextGC m); ("LastGC", ms_LastGC m); ("PauseTotalNs", ms_PauseTotalNs m)] ++
  [("runtime.MemStats.EnableGC", if ms_EnableGC m then 1 else 0); ("runtime.MemStats.DebugGC", if ms_DebugGC m then 1 else 0);
   ("runtime.NumGoroutine", rd_goroutines r); ("runtime.NumThread", rd_threads r)].
Definition debug_gauges (g : gcstats) : list (string * Z) :=
  [("debug.GCStats.LastGC", gc_LastGC g); ("debug.GCStats.NumGC", gc_NumGC g); ("debug.GCStats.PauseTotal", gc_PauseTotal g)].

(** what is registered: names and the interface each metric has *)
Definition runtime_names : list (string * class) :=
  map (fun n => (n, CGauge)) (map fst (plain_gauges (MkReading (MkMem 0 0 false false 0 0 0 0 0 0 0 0 0 0 0 0 0 0 0 0 f_zero [] 0 0 0 0 0) 0 0 0)) ++ map fst uint64_deltas ++ ["runtime.MemStats.NumGC"]) ++
  [("runtime.MemStats.GCCPUFraction", CGaugeF); ("runtime.MemStats.PauseNs", CHist); ("runtime.ReadMemStats", CTimer)].
Definition debug_names : list (string * class) :=
  [("debug.GCStats.LastGC", CGauge); ("debug.GCStats.NumGC", CGauge); ("debug.GCStats.PauseTotal", CGauge);
   ("debug.GCStats.Pause", CHist); ("debug.ReadGCStats", CTimer)].

(** ** Pauses.  [P k] is the pause of the k-th garbage collection (k = 1, 2, …), [T k] its time *)
Local Open Scope nat_scope.
(** the statistics after [n] collections: the counter, of 32 bits; the last 256 pauses are in a
    circular buffer, the latest at (NumGC+255)%256 *)
Definition shows (P : nat -> Z) (n : nat) (r : reading) : Prop :=
  ms_NumGC (rd_mem r) = (Z.of_nat n mod 2 ^ 32)%Z /\ List.length (ms_PauseNs (rd_mem r)) = 256 /\
  forall k, 1 <= k <= n -> n < k + 256 -> nth ((k + 255) mod 256) (ms_PauseNs (rd_mem r)) 0%Z = P k.
(** the collections a capture after [n] collections records, when the previous one was after [n0] *)
Definition recorded_gcs (n0 n : nat) : list nat :=
  if n - n0 <? 256 then seq (S n0) (n - n0)
  else seq (S (256 * (n / 256))) (n mod 256) ++ seq (n - 255) (256 - n mod 256).
(** debug.GCStats after [n] collections *)
Definition gc_shows (P T : nat -> Z) (n : nat) (g : gcstats) : Prop :=
  gc_LastGC g = match n with 0 => 0%Z | _ => T n end /\
  hd_error (gc_Pause g) = match n with 0 => None | _ => Some (P n) end.

(** the sample of a histogram or timer *)
Definition sample_of (w : world) (g : val) : option expdecay :=
  match match g with
        | VHist l => nth_error (heap w) l
        | VTimer l => match nth_error (heap w) l with Some (OTimer (VHist h) _) => nth_error (heap w) h | _ => None end
        | _ => None
        end with
  | Some (OHist (VExp e)) => match nth_error (heap w) e with Some (OExp x) => Some x | _ => None end
  | _ => None
  end.
(** Update with each value, in order, with what the clock and the random generator give *)
Definition record_all (mexp : f64 -> f64) (x : expdecay) (l : list (Z * orc)) : expdecay :=
  fold_left (fun x no => fst (exp_update mexp x (o_now (snd no)) (fst no) (o_rand (snd no)))) l x.

(** what registering [names] in registry [v] does: what was there stays; the other names get
    new metrics of the right interface, all different (unless UseNilMetrics); nothing else changes *)
Definition newly_registered (names : list (string * class)) (s s' : state) (v : val) : Prop :=
  (forall n c, In (n, c) names ->
     match bound (registered (fst s)) v n with
     | Some j => bound (registered (fst s')) v n = Some j
     | None => exists g, bound (registered (fst s')) v n = Some g /\ cls g = c /\ (usenil (fst s) = false -> ~ In g (snd s))
     end) /\
  (forall n n' g, In n (map fst names) -> In n' (map fst names) -> usenil (fst s) = false ->
     bound (registered (fst s)) v n = None -> bound (registered (fst s)) v n' = None ->
     bound (registered (fst s')) v n = Some g -> bound (registered (fst s')) v n' = Some g -> n = n') /\
  (forall l n', (forall n c, In (n, c) names -> base v <> Some l \/ n' <> full v n) ->
     registered (fst s') l n' = registered (fst s) l n').
