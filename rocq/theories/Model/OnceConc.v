(** RegisterRuntimeMemStats (runtime.go:150-216) and RegisterDebugGCStats (debug.go:58-74) called by
    several goroutines, and captures (runtime.go:73-145, debug.go:40-53) at the same time.

    sync.Once is modelled as in Go's library: Do loads done, and if it is not set takes the mutex,
    looks again, runs its argument, sets done (deferred, so also if the argument panics) and
    releases the mutex (deferred too).
    Simplifications: of a capture only the uses of the variables runtimeMetrics and debugMetrics
    are actions (the other variables are in RuntimeConc.v); r.Register is one action, which does
    not panic unless r is nil (RegistryConc.v has what it does); the two groups of metrics share
    nothing, so every execution is about one of them. *)
From Coq Require Import List String.
From Verif.Model Require Import Conc Runtime.
Import ListNotations.
Local Open Scope string_scope.
Local Open Scope list_scope.

Inductive family := RuntimeFamily | DebugFamily.
(** runtime.go:152-182, debug.go:60-65 *)
Definition creates (g : family) : list string := map fst (match g with RuntimeFamily => rt_create | DebugFamily => dbg_create end).
(** runtime.go:184-214, debug.go:67-72 *)
Definition names (g : family) : list (string * string) := match g with RuntimeFamily => rt_register | DebugFamily => dbg_register end.
(** the fields whose methods a capture calls, in order; [k] pauses are recorded (at most one by a
    capture of the debug statistics, debug.go:48-50) *)
Definition uses (g : family) (k : nat) : list string :=
  match g with
  | RuntimeFamily =>
    ["ReadMemStats"; "Alloc"; "BuckHashSys"; "DebugGC"; "EnableGC"; "Frees"; "HeapAlloc"; "HeapIdle"; "HeapInuse"; "HeapObjects"; "HeapReleased"; "HeapSys";
     "LastGC"; "Lookups"; "Mallocs"; "MCacheInuse"; "MCacheSys"; "MSpanInuse"; "MSpanSys"; "NextGC"; "NumGC"; "GCCPUFraction"]
    ++ repeat "PauseNs" k ++
    ["PauseTotalNs"; "StackInuse"; "StackSys"; "Sys"; "TotalAlloc"; "NumCgoCall"; "NumGoroutine"; "NumThread"]
  | DebugFamily => ["ReadGCStats"; "LastGC"; "NumGC"] ++ (match k with O => [] | _ => ["Pause"] end) ++ ["PauseTotal"]
  end.

(** [o_set]: the fields that are not nil *)
Record once := MkOnce { o_done : bool; o_locked : bool; o_set : list string }.
Definition once_init : once := MkOnce false false [].
Inductive once_act :=
| Created (f : string)                       (* runtimeMetrics.f = New... *)
| Put (r : nat) (name f : string)            (* r.Register(name, runtimeMetrics.f) *)
| Used (f : string) | UsedNil (f : string).  (* a method of a metric, or of nil *)
Inductive once_op := Register (r : option nat) (* None: nil *) | Capture (k : nat).
Inductive once_ret := Returned | Panicked.
Notation ocode := (code once once_act once_ret).

Section Family.
Variable g : family.
Definition unlock_c (x : once_ret) : ocode := Atom always (fun s => MkOnce (o_done s) false (o_set s)) silent (fun _ => Ret x).
Definition store_done (x : once_ret) : ocode := Atom always (fun s => MkOnce true (o_locked s) (o_set s)) silent (fun _ => unlock_c x).
Fixpoint put_c (x : nat) (ns : list (string * string)) : ocode :=
  match ns with
  | [] => store_done Returned
  | (n, f) :: r => Atom always (fun s => s) (fun _ => [Put x n f]) (fun _ => put_c x r)
  end.
Fixpoint create_c (r : option nat) (fs : list string) : ocode :=
  match fs with
  | [] => match r with Some x => put_c x (names g) | None => store_done Panicked end
  | f :: fs' => Atom always (fun s => MkOnce (o_done s) (o_locked s) (f :: o_set s)) (fun _ => [Created f]) (fun _ => create_c r fs')
  end.
Definition check_c (r : option nat) : ocode := Atom always (fun s => s) silent (fun s => if o_done s then unlock_c Returned else create_c r (creates g)).
Definition lock_c (r : option nat) : ocode := Atom (fun s => negb (o_locked s)) (fun s => MkOnce (o_done s) true (o_set s)) silent (fun _ => check_c r).
(** sync.Once.Do *)
Definition do_c (r : option nat) : ocode := Atom always (fun s => s) silent (fun s => if o_done s then Ret Returned else lock_c r).
Definition is_set (f : string) (s : once) : bool := existsb (String.eqb f) (o_set s).
Fixpoint use_c (fs : list string) : ocode :=
  match fs with
  | [] => Ret Returned
  | f :: r => Atom always (fun s => s) (fun s => [if is_set f s then Used f else UsedNil f]) (fun s => if is_set f s then use_c r else Ret Panicked)
  end.
Definition once_body (op : once_op) : ocode := match op with Register r => do_c r | Capture k => use_c (uses g k) end.
Definition once_exec (sched : list (choice once_op)) := cexec once_body once_init sched.
End Family.
