(** One StandardRegistry and the meter arbiter, used by several goroutines
    (registry.go:55-240, meter.go:36-49, 146-152, 226-251): all methods as sequences of
    atomic actions on one shared state, including the code of the caller that they run
    (callbacks of Each, health check functions, lazy constructors).

    Simplifications.
    - Metrics are values with an identity and a kind; what is inside them is elsewhere
      (World.v, Meter.v).  A timer counts as its meter.
    - sync.RWMutex: Lock first shuts out new readers and other writers ([AAnnounce]) and
      then waits for the readers to leave ([AAcquire]); RLock waits while a writer is
      announced.  (Go also lets the readers that waited for a writer in before the next
      writer; the model allows either order.)
    - An iteration over the map reads the keys in the order it will visit them (an
      argument, any order) and then each entry in turn.  Go's map does not change
      otherwise during these iterations, except for deleting the entry visited.
    - Caller code is a program of registry calls that depends on the results ([cbp]).
      A panic in caller code is not modelled. *)
From Coq Require Import List String Arith Bool.
From Verif.Model Require Import Conc Meter.
Import ListNotations.
Local Open Scope list_scope.
Local Open Scope nat_scope.

(** [KNone]: not one of the seven kinds; [KStop]: a meter or timer *)
Inductive mkind := KNone | KPlain | KHealth | KStop.
Record mv := MkV { v_id : nat; v_kind : mkind }.
Definition is_metric (v : mv) : bool := match v_kind v with KNone => false | _ => true end.
Definition is_health (v : mv) : bool := match v_kind v with KHealth => true | _ => false end.
Definition is_stoppable (v : mv) : bool := match v_kind v with KStop => true | _ => false end.

Definition entries := list (string * mv).
Fixpoint mlookup (n : string) (m : entries) : option mv :=
  match m with [] => None | (k, v) :: r => if String.eqb k n then Some v else mlookup n r end.
Definition mremove (n : string) (m : entries) : entries := filter (fun kv => negb (String.eqb (fst kv) n)) m.
Definition madd (n : string) (v : mv) (m : entries) : entries := m ++ [(n, v)].
(** the order in which an iteration visits the entries *)
Definition ordered {A} (ord : list nat) (l : list A) : list A :=
  flat_map (fun i => match nth_error l i with Some a => [a] | None => [] end) (visit ord (seq 0 (List.length l))).

(** ** shared state *)
Inductive lockid := RegL | ArbL.
(** sync.RWMutex *)
Record rwlock := MkRW { announced : bool; held : bool; readers : nat }.
Record rstate := MkR {
  reg_lock : rwlock;          (* registry.go:57 mutex *)
  arb_lock : rwlock;          (* meter.go:227 *)
  metrics : entries;          (* registry.go:56 *)
  arb_meters : list nat;      (* meter.go:229 *)
  stopped : list nat;         (* the meters whose flag is set, meter.go:132 *)
  made : list mv              (* what lazy constructors have made, oldest first *)
}.
Definition lock_init : rwlock := MkRW false false 0.
Definition rstate_of (m : entries) : rstate := MkR lock_init lock_init m [] [] [].

Definition lock_of (l : lockid) (s : rstate) : rwlock := match l with RegL => reg_lock s | ArbL => arb_lock s end.
Definition set_lock (l : lockid) (x : rwlock) (s : rstate) : rstate :=
  match l with
  | RegL => MkR x (arb_lock s) (metrics s) (arb_meters s) (stopped s) (made s)
  | ArbL => MkR (reg_lock s) x (metrics s) (arb_meters s) (stopped s) (made s)
  end.

(** what the theorems observe *)
Inductive rlabel :=
| LMap (write : bool)               (* access to the map of the registry *)
| LArb (write : bool)               (* access to the arbiter's set *)
| LCall (n : string) (v : mv)       (* Each calls its callback *)
| LCheck (n : string) (v : mv)      (* RunHealthchecks calls Check *)
| LMade (v : mv).                   (* GetOrRegister calls the constructor *)

(** the atomic actions *)
Inductive act :=
| ARLock (l : lockid) | ARUnlock (l : lockid)
| AAnnounce (l : lockid) | AAcquire (l : lockid) | AUnlock (l : lockid)
| AMapRead | AMapWrite (f : entries -> entries)
| AArbRead | AArbWrite (f : list nat -> list nat)
| ACas (id : nat)                   (* atomic.CompareAndSwapUint32(&m.stopped, 0, 1) *)
| ANote (l : rlabel)                (* caller code is entered *)
| AMake (v : mv).                   (* ... a constructor *)
Definition en (a : act) (s : rstate) : bool :=
  match a with
  | ARLock l | AAnnounce l => negb (announced (lock_of l s))
  | AAcquire l => Nat.eqb (readers (lock_of l s)) 0
  | _ => true
  end.
Definition upd (a : act) (s : rstate) : rstate :=
  match a with
  | ARLock l => let x := lock_of l s in set_lock l (MkRW (announced x) (held x) (S (readers x))) s
  | ARUnlock l => let x := lock_of l s in set_lock l (MkRW (announced x) (held x) (pred (readers x))) s
  | AAnnounce l => let x := lock_of l s in set_lock l (MkRW true (held x) (readers x)) s
  | AAcquire l => let x := lock_of l s in set_lock l (MkRW (announced x) true (readers x)) s
  | AUnlock l => let x := lock_of l s in set_lock l (MkRW false false (readers x)) s
  | AMapWrite f => MkR (reg_lock s) (arb_lock s) (f (metrics s)) (arb_meters s) (stopped s) (made s)
  | AArbWrite f => MkR (reg_lock s) (arb_lock s) (metrics s) (f (arb_meters s)) (stopped s) (made s)
  | ACas id => MkR (reg_lock s) (arb_lock s) (metrics s) (arb_meters s) (if memn id (stopped s) then stopped s else id :: stopped s) (made s)
  | AMake v => MkR (reg_lock s) (arb_lock s) (metrics s) (arb_meters s) (stopped s) (made s ++ [v])
  | AMapRead | AArbRead | ANote _ => s
  end.
Definition lab (a : act) (s : rstate) : list rlabel :=
  match a with
  | AMapRead => [LMap false] | AMapWrite _ => [LMap true]
  | AArbRead => [LArb false] | AArbWrite _ => [LArb true]
  | ANote l => [l]
  | AMake v => [LMade v]
  | _ => []
  end.
(** what the goroutine gets to see *)
Inductive obs := ObsNone | ObsMap (m : entries) | ObsFlag (b : bool).
Definition see (a : act) (s : rstate) : obs :=
  match a with
  | AMapRead => ObsMap (metrics s)
  | ACas id => ObsFlag (negb (memn id (stopped s)))
  | _ => ObsNone
  end.

(** ** calls *)
Inductive rret := RtUnit | RtErr (duplicate : bool) | RtOpt (o : option mv) | RtVal (v : mv) | RtList (l : entries).
Inductive rop :=
| RGet (n : string)
| RRegister (n : string) (v : mv)
| RGetOrRegister (n : string) (v : mv)
| RGetOrRegisterFn (n : string) (v : mv) (mk : cbp)      (* the constructor runs mk and makes v *)
| RUnregister (n : string)
| RUnregisterAll (ord : list nat)
| REach (ord : list nat) (cb : string -> mv -> cbp)
| RRunHealthchecks (ord : list nat) (chk : string -> mv -> cbp)   (* what Check of each metric does *)
| RNewMeter (v : mv) | RStop (v : mv) | RTickMeters
(** caller code *)
with cbp :=
| CDone
| CDo (o : rop) (k : rret -> cbp).

Section K.
Context {A : Type}.
Notation rcode := (code rstate rlabel A).
Definition do (a : act) (k : obs -> rcode) : rcode := Atom (en a) (upd a) (lab a) (fun s => k (see a s)).
Definition rlock_c (l : lockid) (k : rcode) : rcode := do (ARLock l) (fun _ => k).
Definition runlock_c (l : lockid) (k : rcode) : rcode := do (ARUnlock l) (fun _ => k).
Definition lock_c (l : lockid) (k : rcode) : rcode := do (AAnnounce l) (fun _ => do (AAcquire l) (fun _ => k)).
Definition unlock_c (l : lockid) (k : rcode) : rcode := do (AUnlock l) (fun _ => k).
(** r.metrics[n] *)
Definition mget (n : string) (k : option mv -> rcode) : rcode :=
  do AMapRead (fun ob => k (match ob with ObsMap m => mlookup n m | _ => None end)).
(** the names an iteration will visit *)
Definition mrange (ord : list nat) (k : list string -> rcode) : rcode :=
  do AMapRead (fun ob => k (match ob with ObsMap m => map fst (ordered ord m) | _ => [] end)).

(** meter.go:146-152 Stop (timer.go:215-217) *)
Definition stop_c (v : mv) (k : rcode) : rcode :=
  if is_stoppable v then
    do (ACas (v_id v)) (fun ob => match ob with
      | ObsFlag true => lock_c ArbL (do (AArbWrite (filter (fun x => negb (Nat.eqb x (v_id v))))) (fun _ => unlock_c ArbL k))
      | _ => k end)
  else k.
(** meter.go:36-49 NewMeter (timer.go:68-76 NewTimer), for the kinds that have a meter *)
Definition new_c (v : mv) (k : rcode) : rcode :=
  if is_stoppable v then lock_c ArbL (do (AArbWrite (fun l => l ++ [v_id v])) (fun _ => unlock_c ArbL k)) else k.
(** registry.go:205-214 register; passes on whether it was a duplicate *)
Definition register_c (n : string) (v : mv) (k : bool -> rcode) : rcode :=
  mget n (fun o => match o with
    | Some _ => k true
    | None => if is_metric v then do (AMapWrite (madd n v)) (fun _ => k false) else k false
    end).
(** registry.go:234-240 stop, and delete(r.metrics, name) *)
Definition stop_delete_c (n : string) (k : rcode) : rcode :=
  mget n (fun o =>
    let del := do (AMapWrite (mremove n)) (fun _ => k) in
    match o with Some v => stop_c v del | None => del end).
(** registry.go:199-202 *)
Fixpoint stop_delete_all_c (ns : list string) (k : rcode) : rcode :=
  match ns with [] => k | n :: r => stop_delete_c n (stop_delete_all_c r k) end.
(** registry.go:225-230 *)
Fixpoint collect_c (ns : list string) (acc : entries) (k : entries -> rcode) : rcode :=
  match ns with
  | [] => k acc
  | n :: r => mget n (fun o => collect_c r (match o with Some v => acc ++ [(n, v)] | None => acc end) k)
  end.
(** registry.go:221-232 registered *)
Definition registered_c (ord : list nat) (k : entries -> rcode) : rcode :=
  rlock_c RegL (mrange ord (fun ns => collect_c ns [] (fun l => runlock_c RegL (k l)))).
(** registry.go:68-71: the callback for each pair *)
Fixpoint callbacks_c (cb : string -> mv -> rcode -> rcode) (l : entries) (k : rcode) : rcode :=
  match l with [] => k | (n, v) :: r => do (ANote (LCall n v)) (fun _ => cb n v (callbacks_c cb r k)) end.
(** registry.go:119-123: Check of each health check *)
Fixpoint checks_c (chk : string -> mv -> rcode -> rcode) (ns : list string) (k : rcode) : rcode :=
  match ns with
  | [] => k
  | n :: r => mget n (fun o => match o with
      | Some v => if is_health v then do (ANote (LCheck n v)) (fun _ => chk n v (checks_c chk r k)) else checks_c chk r k
      | None => checks_c chk r k
      end)
  end.
(** registry.go:85-105 GetOrRegister; [mk] makes the value to be registered *)
Definition get_or_register_c (n : string) (v : mv) (mk : rcode -> rcode) (k : rret -> rcode) : rcode :=
  rlock_c RegL (mget n (fun o => runlock_c RegL (match o with
    | Some x => k (RtVal x)
    | None =>
      lock_c RegL (mget n (fun o => match o with
        | Some x => unlock_c RegL (k (RtVal x))
        | None => mk (register_c n v (fun _ => unlock_c RegL (k (RtVal v))))
        end))
    end))).

Fixpoint op_c (o : rop) (k : rret -> rcode) {struct o} : rcode :=
  match o with
  | RGet n =>
    (* registry.go:75-79 *)
    rlock_c RegL (mget n (fun x => runlock_c RegL (k (RtOpt x))))
  | RRegister n v =>
    (* registry.go:109-113 *)
    lock_c RegL (register_c n v (fun dup => unlock_c RegL (k (RtErr dup))))
  | RGetOrRegister n v => get_or_register_c n v (fun c => c) k
  | RGetOrRegisterFn n v mk =>
    (* registry.go:100-102: v.Call(nil) *)
    get_or_register_c n v (fun c => do (AMake v) (fun _ => cb_c mk (new_c v c))) k
  | RUnregister n =>
    (* registry.go:188-193 *)
    lock_c RegL (stop_delete_c n (unlock_c RegL (k RtUnit)))
  | RUnregisterAll ord =>
    (* registry.go:196-203 *)
    lock_c RegL (mrange ord (fun ns => stop_delete_all_c ns (unlock_c RegL (k RtUnit))))
  | REach ord cb =>
    (* registry.go:66-72 *)
    registered_c ord (fun l => callbacks_c (fun n v => cb_c (cb n v)) l (k (RtList l)))
  | RRunHealthchecks ord chk =>
    (* registry.go:116-124: the read lock is held throughout *)
    rlock_c RegL (mrange ord (fun ns => checks_c (fun n v => cb_c (chk n v)) ns (runlock_c RegL (k RtUnit))))
  | RNewMeter v => new_c v (k RtUnit)
  | RStop v => stop_c v (k RtUnit)
  | RTickMeters =>
    (* meter.go:245-251 *)
    rlock_c ArbL (do AArbRead (fun _ => runlock_c ArbL (k RtUnit)))
  end
with cb_c (p : cbp) (k : rcode) {struct p} : rcode :=
  match p with CDone => k | CDo o f => op_c o (fun r => cb_c (f r) k) end.
End K.

Definition rbody (o : rop) : code rstate rlabel rret := op_c o Ret.
