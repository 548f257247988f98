(** Counter, Gauge and GaugeFloat64 (counter.go, gauge.go, gauge_float64.go):
    the methods as sequences of atomic actions.  The shared state is the one
    field of the struct. *)
From Coq Require Import ZArith List.
From Verif.Model Require Import GoInt GoFloat Conc.
Import ListNotations.
Open Scope Z_scope.

(** What a call returns: nothing, an int64, or a snapshot holding one. *)
Inductive zret := RNone | RInt (v : Z) | RSnap (v : Z).

(** counter.go:6-12 *)
Inductive counter_op := CInc (i : Z) | CDec (i : Z) | CClear | CCount | CSnapshot.

(** atomic.AddInt64 (returns the new value, which no caller here uses),
    StoreInt64/StoreUint64, LoadInt64/LoadUint64; [l] labels the action in the
    trace *)
Definition atomic_add {L A} (l : L) (n : Z) (k : code Z L A) : code Z L A :=
  Atom always (fun v => wrap64 (v + n)) (fun _ => [l]) (fun _ => k).
Definition atomic_store {L A} (l : L) (n : Z) (k : code Z L A) : code Z L A :=
  Atom always (fun _ => n) (fun _ => [l]) (fun _ => k).
Definition atomic_load {L A} (l : L) (k : Z -> code Z L A) : code Z L A :=
  Atom always (fun v => v) (fun _ => [l]) k.

(** counter.go:85-112.  -i wraps, so Dec(MinInt64) adds MinInt64.  Snapshot
    calls Count: one load. *)
Definition counter_body (op : counter_op) : code Z counter_op zret :=
  match op with
  | CInc i => atomic_add op i (Ret RNone)
  | CDec i => atomic_add op (wrap64 (- i)) (Ret RNone)
  | CClear => atomic_store op 0 (Ret RNone)
  | CCount => atomic_load op (fun v => Ret (RInt v))
  | CSnapshot => atomic_load op (fun v => Ret (RSnap v))
  end.

(** counter.go:24-29 NewCounter, gauge.go:22-27 NewGauge: zero *)
Definition counter_init : Z := 0.
Definition gauge_init : Z := 0.

(** gauge.go:6-10, 85-102 *)
Inductive gauge_op := GUpdate (v : Z) | GValue | GSnapshot.
Definition gauge_body (op : gauge_op) : code Z gauge_op zret :=
  match op with
  | GUpdate v => atomic_store op v (Ret RNone)
  | GValue => atomic_load op (fun v => Ret (RInt v))
  | GSnapshot => atomic_load op (fun v => Ret (RSnap v))
  end.

(** gauge_float64.go:9-13, 90-107: the field is a uint64 holding the bits. *)
Inductive fret := FRNone | FRVal (v : f64) | FRSnap (v : f64).
Inductive gaugef_op := GFUpdate (v : f64) | GFValue | GFSnapshot.
Definition gaugef_body (op : gaugef_op) : code Z gaugef_op fret :=
  match op with
  | GFUpdate v => atomic_store op (float64bits v) (Ret FRNone)
  | GFValue => atomic_load op (fun b => Ret (FRVal (float64frombits b)))
  | GFSnapshot => atomic_load op (fun b => Ret (FRSnap (float64frombits b)))
  end.
Definition gaugef_init : Z := 0.
