(** Sequential specifications of counters and gauges. *)
From Coq Require Import ZArith List.
From Verif.Model Require Import GoInt GoFloat CounterGauge.
Import ListNotations.
Open Scope Z_scope.

(** an int64 that is added to, subtracted from and reset *)
Definition counter_apply (q : Z) (op : counter_op) : Z * zret :=
  match op with
  | CInc i => (wrap64 (q + i), RNone)
  | CDec i => (wrap64 (q - i), RNone)
  | CClear => (0, RNone)
  | CCount => (q, RInt q)
  | CSnapshot => (q, RSnap q)
  end.

(** a value that is set and read *)
Definition gauge_apply (q : Z) (op : gauge_op) : Z * zret :=
  match op with
  | GUpdate v => (v, RNone)
  | GValue => (q, RInt q)
  | GSnapshot => (q, RSnap q)
  end.

Definition gaugef_apply (q : f64) (op : gaugef_op) : f64 * fret :=
  match op with
  | GFUpdate v => (v, FRNone)
  | GFValue => (q, FRVal q)
  | GFSnapshot => (q, FRSnap q)
  end.

(** the exact (unbounded) sum of increments minus decrements since the last
    Clear of a sequence of operations *)
Definition net (ops : list counter_op) : Z :=
  fold_left (fun acc op => match op with CInc i => acc + i | CDec i => acc - i | CClear => 0 | _ => acc end) ops 0.

Definition is_cclear (op : counter_op) : bool := match op with CClear => true | _ => false end.
