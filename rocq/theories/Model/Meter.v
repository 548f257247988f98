(** Meters and the arbiter that ticks them (meter.go), with UseNilMetrics
    false: all methods as sequences of atomic actions on one shared state.

    Simplifications.  sync.RWMutex is a writer flag and a reader count; a
    waiting writer does not hold back readers, which only adds behaviours.
    Accesses to arbiter.meters and arbiter.started happen inside the lock and
    are one action.  The clock is part of the state and moves by [MAdvance].
    time.Ticker: a tick is a call of [MTickAll] by the goroutine that runs
    arbiter.tick; the map iteration order is its argument. *)
From Coq Require Import ZArith List.
From Verif.Model Require Import GoInt GoFloat Conc Ewma.
Import ListNotations.
Open Scope Z_scope.

(** meter.go:65-68, 128-133 *)
Record meter := MkMeter {
  m_count : Z;
  m_r1 : Z; m_r5 : Z; m_r15 : Z; m_mean : Z;   (* uint64 *)
  m_a1 : ewma; m_a5 : ewma; m_a15 : ewma;
  m_start : Z;                                 (* ns *)
  m_stopped : bool;
  m_ready : bool          (* not in the code: the handle may be used (set when the
                             meter enters the set, just before NewMeter returns) *)
}.

(** meter.go:226-231 and every meter ever made (a handle is an index) *)
Record marb := MkArb {
  ms : list meter;
  live : list nat;            (* arbiter.meters *)
  started : bool;
  wlock : bool;               (* write-locked *)
  rlocks : nat;               (* read locks held *)
  now : Z                     (* ns *)
}.

Definition arb_init : marb := MkArb [] [] false false 0 0.

Inductive which := A1 | A5 | A15.

(** observations *)
Inductive mlabel :=
| LMarked (id : nat) (n : Z)            (* Mark added n to the count *)
| LSkipped (id : nat) (n : Z)           (* Mark saw the meter stopped *)
| LEwma (id : nat) (w : which) (l : elabel)
| LCas (id : nat) (won : bool)          (* Stop's compare-and-swap *)
| LInserted (id : nat) | LDeleted (id : nat)
| LSpawn                                (* go arbiter.tick() *)
| LRound (ids : list nat) | LRoundEnd   (* tickMeters holds the read lock *)
| LTick (id : nat) | LTicked (id : nat) (* meter.tick began, ended *)
| LPub (id : nat) (w : which) (b : Z)   (* updateSnapshot stored a rate *)
| LMean (id : nat) (b : Z).

Definition ewma_nil : ewma := NewEWMA f_zero.
Definition meter_nil : meter := MkMeter 0 0 0 0 0 ewma_nil ewma_nil ewma_nil 0 false false.

Definition meter_at (s : marb) (id : nat) : meter := nth id (ms s) meter_nil.
Fixpoint upd_nth {A} (n : nat) (f : A -> A) (l : list A) : list A :=
  match l, n with
  | [], _ => []
  | x :: r, O => f x :: r
  | x :: r, S n' => x :: upd_nth n' f r
  end.
Definition upd_meter (id : nat) (f : meter -> meter) (s : marb) : marb :=
  MkArb (upd_nth id f (ms s)) (live s) (started s) (wlock s) (rlocks s) (now s).

Definition get_a (w : which) (m : meter) : ewma := match w with A1 => m_a1 m | A5 => m_a5 m | A15 => m_a15 m end.
Definition set_a (w : which) (e : ewma) (m : meter) : meter :=
  match w with
  | A1 => MkMeter (m_count m) (m_r1 m) (m_r5 m) (m_r15 m) (m_mean m) e (m_a5 m) (m_a15 m) (m_start m) (m_stopped m) (m_ready m)
  | A5 => MkMeter (m_count m) (m_r1 m) (m_r5 m) (m_r15 m) (m_mean m) (m_a1 m) e (m_a15 m) (m_start m) (m_stopped m) (m_ready m)
  | A15 => MkMeter (m_count m) (m_r1 m) (m_r5 m) (m_r15 m) (m_mean m) (m_a1 m) (m_a5 m) e (m_start m) (m_stopped m) (m_ready m)
  end.
Definition set_count (c : Z) (m : meter) : meter :=
  MkMeter c (m_r1 m) (m_r5 m) (m_r15 m) (m_mean m) (m_a1 m) (m_a5 m) (m_a15 m) (m_start m) (m_stopped m) (m_ready m).
Definition set_stopped (m : meter) : meter :=
  MkMeter (m_count m) (m_r1 m) (m_r5 m) (m_r15 m) (m_mean m) (m_a1 m) (m_a5 m) (m_a15 m) (m_start m) true (m_ready m).
Definition set_ready (m : meter) : meter :=
  MkMeter (m_count m) (m_r1 m) (m_r5 m) (m_r15 m) (m_mean m) (m_a1 m) (m_a5 m) (m_a15 m) (m_start m) (m_stopped m) true.
Definition set_pub (w : which) (b : Z) (m : meter) : meter :=
  match w with
  | A1 => MkMeter (m_count m) b (m_r5 m) (m_r15 m) (m_mean m) (m_a1 m) (m_a5 m) (m_a15 m) (m_start m) (m_stopped m) (m_ready m)
  | A5 => MkMeter (m_count m) (m_r1 m) b (m_r15 m) (m_mean m) (m_a1 m) (m_a5 m) (m_a15 m) (m_start m) (m_stopped m) (m_ready m)
  | A15 => MkMeter (m_count m) (m_r1 m) (m_r5 m) b (m_mean m) (m_a1 m) (m_a5 m) (m_a15 m) (m_start m) (m_stopped m) (m_ready m)
  end.
Definition get_pub (w : which) (m : meter) : Z := match w with A1 => m_r1 m | A5 => m_r5 m | A15 => m_r15 m end.
Definition set_mean (b : Z) (m : meter) : meter :=
  MkMeter (m_count m) (m_r1 m) (m_r5 m) (m_r15 m) b (m_a1 m) (m_a5 m) (m_a15 m) (m_start m) (m_stopped m) (m_ready m).

(** calls; a handle must exist for its methods to be callable *)
Inductive meter_op :=
| MNew
| MMark (id : nat) (n : Z) | MStop (id : nat)
| MCount (id : nat) | MRate (id : nat) (w : which) | MRateMean (id : nat) | MSnapshot (id : nat)
| MTickAll (order : list nat)
| MAdvance (d : Z).
Inductive meter_ret :=
| MUnit | MHandle (id : nat) | MInt (n : Z) | MFloat (f : f64)
| MSnap (count r1 r5 r15 mean : Z).

Section Code.
Variable mexp : f64 -> f64.

(** meter.go:135-143 newStandardMeter *)
Definition new_meter (t : Z) : meter :=
  MkMeter 0 0 0 0 0 (NewEWMA (ewma_alpha mexp 1)) (NewEWMA (ewma_alpha mexp 5)) (NewEWMA (ewma_alpha mexp 15)) t false false.

Section K.
Context {A : Type}.
Notation code := (code marb mlabel A).

Definition mload (k : marb -> code) : code := Atom always (fun s => s) silent k.
Definition mstore (f : marb -> marb) (l : list mlabel) (k : code) : code := Atom always f (fun _ => l) (fun _ => k).

Definition set_lock (w : bool) (s : marb) : marb := MkArb (ms s) (live s) (started s) w (rlocks s) (now s).
Definition set_rlocks (n : nat) (s : marb) : marb := MkArb (ms s) (live s) (started s) (wlock s) n (now s).
Definition lock_c (k : code) : code :=
  Atom (fun s => (negb (wlock s) && Nat.eqb (rlocks s) 0)%bool) (set_lock true) silent (fun _ => k).
Definition unlock_c (k : code) : code := mstore (set_lock false) [] k.

Definition ewma_get (id : nat) (w : which) (s : marb) : ewma := get_a w (meter_at s id).
Definition ewma_set (id : nat) (w : which) (s : marb) (e : ewma) : marb := upd_meter id (set_a w e) s.
Definition ewma_em (id : nat) (w : which) (l : elabel) : list mlabel := [LEwma id w l].

(** time.Duration.Seconds *)
Definition seconds (d : Z) : f64 :=
  fadd (f_of_int (d ÷ 10 ^ 9)) (fdiv (f_of_int (Z.rem d (10 ^ 9))) (f_of_int (10 ^ 9))).
(** time.Since saturates *)
Definition since (start t : Z) : Z := Z.min (t - start) max_int64.

(** meter.go:205-215 updateSnapshot: four reads and a clock reading, four stores *)
Definition update_snapshot_c (id : nat) (k : code) : code :=
  rate_c (ewma_get id A1) (fun r1 =>
  rate_c (ewma_get id A5) (fun r5 =>
  rate_c (ewma_get id A15) (fun r15 =>
  mload (fun s => let count := m_count (meter_at s id) in
  mload (fun s =>
    let mean := float64bits (fdiv (f_of_int count) (seconds (since (m_start (meter_at s id)) (now s)))) in
    mstore (upd_meter id (set_pub A1 (float64bits r1))) [LPub id A1 (float64bits r1)] (
    mstore (upd_meter id (set_pub A5 (float64bits r5))) [LPub id A5 (float64bits r5)] (
    mstore (upd_meter id (set_pub A15 (float64bits r15))) [LPub id A15 (float64bits r15)] (
    mstore (upd_meter id (set_mean mean)) [LMean id mean] k)))))))).

(** meter.go:217-222 tick *)
Definition meter_tick_c (id : nat) (k : code) : code :=
  mstore (fun s => s) [LTick id] (
  tick_c (ewma_get id A1) (ewma_set id A1) (ewma_em id A1) (
  tick_c (ewma_get id A5) (ewma_set id A5) (ewma_em id A5) (
  tick_c (ewma_get id A15) (ewma_set id A15) (ewma_em id A15) (
  update_snapshot_c id (mstore (fun s => s) [LTicked id] k))))).

(** meter.go:245-251 tickMeters, the loop *)
Fixpoint tick_list_c (ids : list nat) (k : code) : code :=
  match ids with
  | [] => k
  | id :: rest => meter_tick_c id (tick_list_c rest k)
  end.
End K.

(** the order in which a map iteration visits the set: any; [order] says which *)
Definition memn (x : nat) (l : list nat) : bool := existsb (Nat.eqb x) l.
Definition visit (order set : list nat) : list nat :=
  filter (fun x => memn x set) (nodup Nat.eq_dec order) ++ filter (fun x => negb (memn x order)) set.

Definition exists_b (id : nat) (s : marb) : bool := m_ready (meter_at s id).
Definition insert_live (id : nat) (s : marb) : marb :=
  MkArb (upd_nth id set_ready (ms s)) (live s ++ [id]) true (wlock s) (rlocks s) (now s).
Definition delete_live (id : nat) (s : marb) : marb :=
  MkArb (ms s) (filter (fun x => negb (Nat.eqb x id)) (live s)) (started s) (wlock s) (rlocks s) (now s).

Definition meter_body (op : meter_op) : code marb mlabel meter_ret :=
  match op with
  | MNew =>
    (* meter.go:36-49 *)
    Atom always (fun s => MkArb (ms s ++ [new_meter (now s)]) (live s) (started s) (wlock s) (rlocks s) (now s)) silent
      (fun s => let id := length (ms s) in
       lock_c (Atom always (insert_live id) (fun s => LInserted id :: if started s then [] else [LSpawn])
         (fun _ => unlock_c (Ret (MHandle id)))))
  | MMark id n =>
    (* meter.go:160-171 *)
    Atom (exists_b id) (fun s => s) (fun s => if m_stopped (meter_at s id) then [LSkipped id n] else []) (fun s =>
      if m_stopped (meter_at s id) then Ret MUnit
      else
        Atom always (upd_meter id (fun m => set_count (wrap64 (m_count m + n)) m)) (fun _ => [LMarked id n]) (fun _ =>
        ewma_update_c (ewma_get id A1) (ewma_set id A1) (ewma_em id A1) n (
        ewma_update_c (ewma_get id A5) (ewma_set id A5) (ewma_em id A5) n (
        ewma_update_c (ewma_get id A15) (ewma_set id A15) (ewma_em id A15) n (
        update_snapshot_c id (Ret MUnit))))))
  | MStop id =>
    (* meter.go:146-152 *)
    Atom (exists_b id) (upd_meter id set_stopped) (fun s => [LCas id (negb (m_stopped (meter_at s id)))]) (fun s =>
      if m_stopped (meter_at s id) then Ret MUnit
      else lock_c (mstore (delete_live id) [LDeleted id] (unlock_c (Ret MUnit))))
  | MCount id =>
    (* meter.go:155-157 *)
    Atom (exists_b id) (fun s => s) silent (fun s => Ret (MInt (m_count (meter_at s id))))
  | MRate id w =>
    (* meter.go:174-186 *)
    Atom (exists_b id) (fun s => s) silent (fun s => Ret (MFloat (float64frombits (get_pub w (meter_at s id)))))
  | MRateMean id =>
    (* meter.go:189-191 *)
    Atom (exists_b id) (fun s => s) silent (fun s => Ret (MFloat (float64frombits (m_mean (meter_at s id)))))
  | MSnapshot id =>
    (* meter.go:194-203 *)
    Atom (exists_b id) (fun s => s) silent (fun s => let count := m_count (meter_at s id) in
      mload (fun s => let r1 := m_r1 (meter_at s id) in
      mload (fun s => let r5 := m_r5 (meter_at s id) in
      mload (fun s => let r15 := m_r15 (meter_at s id) in
      mload (fun s => Ret (MSnap count r1 r5 r15 (m_mean (meter_at s id))))))))
  | MTickAll order =>
    (* meter.go:245-251; the loop runs while the read lock is held *)
    Atom (fun s => negb (wlock s)) (fun s => set_rlocks (S (rlocks s)) s) (fun s => [LRound (live s)]) (fun s =>
      tick_list_c (visit order (live s))
        (Atom always (fun s => set_rlocks (pred (rlocks s)) s) (fun _ => [LRoundEnd]) (fun _ => Ret MUnit)))
  | MAdvance d =>
    Atom always (fun s => MkArb (ms s) (live s) (started s) (wlock s) (rlocks s) (now s + Z.max 0 d)) silent (fun _ => Ret MUnit)
  end.
End Code.
