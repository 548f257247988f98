(** CaptureRuntimeMemStatsOnce (runtime.go:73-145) and CaptureDebugGCStatsOnce (debug.go:40-53)
    called by several goroutines.  The package variables memStats, frees, lookups, mallocs,
    numGC and numCgoCalls (runtime.go:47-51) and gcStats (debug.go:20) are not synchronized.

    Every use of such a variable is an action here, and so is every call of a method of a
    metric.  In Go such accesses, if unordered, are a data race and may do worse than happen
    in some order; what goes wrong here goes wrong there.  The metrics have been registered.
    memStats and gcStats are read and written as a whole, except for the loop over PauseNs,
    which reads one element at a time.  What runtime.ReadMemStats, numCgoCall and so on return
    is an argument of the call. *)
From Coq Require Import ZArith List String.
From Verif.Model Require Import GoInt GoFloat GoBase Conc World Runtime.
Import ListNotations.
Local Open Scope string_scope.
Local Open Scope list_scope.
Local Open Scope Z_scope.

Inductive var := VMemStats | VFrees | VLookups | VMallocs | VNumGC | VNumCgoCalls | VGCStats.
(** [None]: gcStats is still as debug.go:78-80 leaves it, LastGC being the zero time *)
Record vars := MkVars { v_mem : memstats; v_prev : previous; v_gc : option gcstats }.
Definition mem_zero : memstats := MkMem 0 0 false false 0 0 0 0 0 0 0 0 0 0 0 0 0 0 0 0 f_zero (repeat 0 256) 0 0 0 0 0.
Definition vars_init : vars := MkVars mem_zero prev0 None.

(** the variables runtimeMetrics and debugMetrics *)
Inductive group := RuntimeMetrics | DebugMetrics.
(** what is observed: uses of the variables, and calls of the metrics' methods *)
Inductive seen_action :=
| Reads (x : var) | Writes (x : var)
| Updated (g : group) (field : string) (n : Z) | UpdatedF (g : group) (field : string) (x : f64) | Timed (g : group) (field : string) (t : Z).

(** [t] is the time read first *)
Inductive capture_op := CaptureRuntime (r : reading) (t : Z) | CaptureDebug (g : gcstats) (t : Z).

Notation ccode := (code vars seen_action unit).
Definition load {A} (x : var) (get : vars -> A) (k : A -> ccode) : ccode := Atom always (fun s => s) (fun _ => [Reads x]) (fun s => k (get s)).
Definition store (x : var) (set : vars -> vars) (k : ccode) : ccode := Atom always set (fun _ => [Writes x]) (fun _ => k).
Definition do_call (l : seen_action) (k : ccode) : ccode := Atom always (fun s => s) (fun _ => [l]) (fun _ => k).
Definition set_prev (f : previous -> previous) (s : vars) : vars := MkVars (v_mem s) (f (v_prev s)) (v_gc s).

(** runtimeMetrics.MemStats.X.Update(int64(memStats.X)) *)
Definition show_c (field : string) (get : memstats -> Z) (k : ccode) : ccode :=
  load VMemStats (fun s => get (v_mem s)) (fun n => do_call (Updated RuntimeMetrics field n) k).
(** runtimeMetrics.MemStats.X.Update(int64(memStats.X - x)) *)
Definition delta_c (field : string) (get : memstats -> Z) (x : var) (old : previous -> Z) (sub : Z -> Z -> Z) (k : ccode) : ccode :=
  load VMemStats (fun s => get (v_mem s)) (fun n => load x (fun s => old (v_prev s)) (fun n0 => do_call (Updated RuntimeMetrics field (sub n n0)) k)).
(** runtime.go:110-126: the indices the loops go through *)
Definition pause_indices (all : bool) (i ii : Z) : list nat :=
  let upto a b := seq (Z.to_nat a) (Z.to_nat (b - a)) in
  if all then upto 0 256 else if ii <? i then upto i 256 ++ upto 0 ii else upto i ii.
Fixpoint pauses_c (is : list nat) (k : ccode) : ccode :=
  match is with
  | [] => k
  | i :: r => load VMemStats (fun s => nth i (ms_PauseNs (v_mem s)) 0) (fun n => do_call (Updated RuntimeMetrics "PauseNs" (wrap64 n)) (pauses_c r k))
  end.
(** x = memStats.X *)
Definition remember_c (get : memstats -> Z) (x : var) (set : Z -> previous -> previous) (k : ccode) : ccode :=
  load VMemStats (fun s => get (v_mem s)) (fun n => store x (set_prev (set n)) k).
Definition set_frees n p := MkPrev n (pv_lookups p) (pv_mallocs p) (pv_numGC p) (pv_cgo p).
Definition set_lookups n p := MkPrev (pv_frees p) n (pv_mallocs p) (pv_numGC p) (pv_cgo p).
Definition set_mallocs n p := MkPrev (pv_frees p) (pv_lookups p) n (pv_numGC p) (pv_cgo p).
Definition set_numGC n p := MkPrev (pv_frees p) (pv_lookups p) (pv_mallocs p) n (pv_cgo p).
Definition set_cgo n p := MkPrev (pv_frees p) (pv_lookups p) (pv_mallocs p) (pv_numGC p) n.

(** runtime.go:73-145 *)
Definition runtime_c (r : reading) (t : Z) : ccode :=
  store VMemStats (fun s => MkVars (rd_mem r) (v_prev s) (v_gc s)) (
  do_call (Timed RuntimeMetrics "ReadMemStats" t) (
  show_c "Alloc" (fun m => wrap64 (ms_Alloc m)) (
  show_c "BuckHashSys" (fun m => wrap64 (ms_BuckHashSys m)) (
  show_c "DebugGC" (fun m => of_bool (ms_DebugGC m)) (
  show_c "EnableGC" (fun m => of_bool (ms_EnableGC m)) (
  delta_c "Frees" ms_Frees VFrees pv_frees (fun a b => wrap64 (sub64 a b)) (
  show_c "HeapAlloc" (fun m => wrap64 (ms_HeapAlloc m)) (
  show_c "HeapIdle" (fun m => wrap64 (ms_HeapIdle m)) (
  show_c "HeapInuse" (fun m => wrap64 (ms_HeapInuse m)) (
  show_c "HeapObjects" (fun m => wrap64 (ms_HeapObjects m)) (
  show_c "HeapReleased" (fun m => wrap64 (ms_HeapReleased m)) (
  show_c "HeapSys" (fun m => wrap64 (ms_HeapSys m)) (
  show_c "LastGC" (fun m => wrap64 (ms_LastGC m)) (
  delta_c "Lookups" ms_Lookups VLookups pv_lookups (fun a b => wrap64 (sub64 a b)) (
  delta_c "Mallocs" ms_Mallocs VMallocs pv_mallocs (fun a b => wrap64 (sub64 a b)) (
  show_c "MCacheInuse" (fun m => wrap64 (ms_MCacheInuse m)) (
  show_c "MCacheSys" (fun m => wrap64 (ms_MCacheSys m)) (
  show_c "MSpanInuse" (fun m => wrap64 (ms_MSpanInuse m)) (
  show_c "MSpanSys" (fun m => wrap64 (ms_MSpanSys m)) (
  show_c "NextGC" (fun m => wrap64 (ms_NextGC m)) (
  delta_c "NumGC" ms_NumGC VNumGC pv_numGC sub32 (
  load VMemStats (fun s => ms_GCCPUFraction (v_mem s)) (fun x => do_call (UpdatedF RuntimeMetrics "GCCPUFraction" x) (
  load VNumGC (fun s => pv_numGC (v_prev s)) (fun numGC =>
  load VMemStats (fun s => ms_NumGC (v_mem s)) (fun newGC =>
  load VMemStats (fun s => ms_NumGC (v_mem s)) (fun newGC2 =>
  load VNumGC (fun s => pv_numGC (v_prev s)) (fun numGC2 =>
  pauses_c (pause_indices (256 <=? sub32 newGC2 numGC2) (numGC mod 256) (newGC mod 256)) (
  remember_c ms_Frees VFrees set_frees (
  remember_c ms_Lookups VLookups set_lookups (
  remember_c ms_Mallocs VMallocs set_mallocs (
  remember_c ms_NumGC VNumGC set_numGC (
  show_c "PauseTotalNs" (fun m => wrap64 (ms_PauseTotalNs m)) (
  show_c "StackInuse" (fun m => wrap64 (ms_StackInuse m)) (
  show_c "StackSys" (fun m => wrap64 (ms_StackSys m)) (
  show_c "Sys" (fun m => wrap64 (ms_Sys m)) (
  show_c "TotalAlloc" (fun m => wrap64 (ms_TotalAlloc m)) (
  load VNumCgoCalls (fun s => pv_cgo (v_prev s)) (fun cgo =>
  do_call (Updated RuntimeMetrics "NumCgoCall" (wrap64 (rd_cgo r - cgo))) (
  store VNumCgoCalls (set_prev (set_cgo (rd_cgo r))) (
  do_call (Updated RuntimeMetrics "NumGoroutine" (rd_goroutines r)) (
  do_call (Updated RuntimeMetrics "NumThread" (rd_threads r)) (
  Ret tt))))))))))))))))))))))))))))))))))))))))))).

(** debug.go:40-53; gcStats has been read when it is used *)
Definition gc_zero : gcstats := MkGc 0 0 0 [].
Definition the_gc (s : vars) : gcstats := match v_gc s with Some g => g | None => gc_zero end.
Definition debug_c (g : gcstats) (t : Z) : ccode :=
  load VGCStats (fun s => match v_gc s with Some g => Some (gc_LastGC g) | None => None end) (fun last =>
  store VGCStats (fun s => MkVars (v_mem s) (v_prev s) (Some g)) (
  do_call (Timed DebugMetrics "ReadGCStats" t) (
  load VGCStats (fun s => gc_LastGC (the_gc s)) (fun n => do_call (Updated DebugMetrics "LastGC" n) (
  load VGCStats (fun s => gc_NumGC (the_gc s)) (fun n => do_call (Updated DebugMetrics "NumGC" n) (
  load VGCStats (fun s => gc_LastGC (the_gc s)) (fun new =>
  let finish := load VGCStats (fun s => gc_PauseTotal (the_gc s)) (fun n => do_call (Updated DebugMetrics "PauseTotal" n) (Ret tt)) in
  if match last with Some n => n =? new | None => false end then finish
  else load VGCStats (fun s => gc_Pause (the_gc s)) (fun ps =>   (* 0 < len(gcStats.Pause) *)
    match ps with
    | [] => finish
    | _ => load VGCStats (fun s => hd 0 (gc_Pause (the_gc s))) (fun p => do_call (Updated DebugMetrics "Pause" p) finish)
    end))))))))).

Definition capture_body (c : capture_op) : ccode := match c with CaptureRuntime r t => runtime_c r t | CaptureDebug g t => debug_c g t end.
Definition captures (sched : list (choice capture_op)) := cexec capture_body vars_init sched.
