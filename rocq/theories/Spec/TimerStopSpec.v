(** Specification of a timer that can be stopped. *)
From Coq Require Import ZArith List.
From Verif.Model Require Import GoInt TimerConc.
Import ListNotations.
Open Scope Z_scope.

(** the durations recorded, how many of them came before the first Stop, and whether there was one *)
Definition stop_timer : Type := list Z * Z * bool.
Definition fresh_timer : stop_timer := ([], 0, false).
(** every duration is recorded; the rates take account of those that come before Stop *)
Definition stop_apply (q : stop_timer) (op : timer_op) : stop_timer * timer_ret :=
  let '(ds, n, stopped) := q in
  match op with
  | TUpdate d => ((ds ++ [d], if stopped then n else wrap64 (n + 1), stopped), TUnit)
  | TSnapshot => (q, TSnap ds n)
  | TCount => (q, TInt (wrap64 (Z.of_nat (length ds))))
  | TValues => (q, TList ds)
  | TStop => ((ds, n, true), TUnit)
  end.
