(** Specification of the exponentially weighted moving average. *)
From Coq Require Import ZArith List Reals.
From Verif.Model Require Import GoInt GoFloat Conc Ewma.
From Verif.Spec Require Import Traces.
Import ListNotations.
Open Scope Z_scope.

(** events per tick, oldest first, and events since the last tick *)
Definition ledger_step (acc : list Z * Z) (op : ewma_op) : list Z * Z :=
  match op with
  | WUpdate n => (fst acc, snd acc + n)
  | WTick => (fst acc ++ [snd acc], 0)
  | _ => acc
  end.
Definition tick_ledger (h : list ewma_op) : list Z * Z := fold_left ledger_step h ([], 0).
Definition tick_counts (h : list ewma_op) : list Z := fst (tick_ledger h).
Definition pending (h : list ewma_op) : Z := snd (tick_ledger h).

(** all events *)
Definition total_events (h : list ewma_op) : Z :=
  fold_right (fun op a => match op with WUpdate n => n + a | _ => a end) 0 h.

(** the documented recurrence in float64: the first instantaneous rate, then
    r + alpha*(x - r); rates are per nanosecond, a tick lasts 5e9 ns *)
Definition float_average (alpha : f64) (counts : list Z) : f64 :=
  match counts with
  | [] => f_zero
  | c :: cs => fold_left (fun r x => fadd r (fmul alpha (fsub (fdiv (f_of_int x) (f_of_int (5 * 10 ^ 9))) r)))
                 cs (fdiv (f_of_int c) (f_of_int (5 * 10 ^ 9)))
  end.

(** and in exact arithmetic *)
Definition ideal_average (alpha : R) (counts : list Z) : R :=
  match counts with
  | [] => 0%R
  | c :: cs => fold_left (fun r x => (r + alpha * (IZR x / 5000000000 - r))%R) cs (IZR c / 5000000000)%R
  end.

(** the exponentially weighted sum: the newest tick has weight alpha, each
    older one (1-alpha) times the next, the oldest carries the rest *)
Fixpoint weighted (alpha : R) (newest_first : list Z) : R :=
  match newest_first with
  | [] => 0%R
  | [c] => (IZR c / 5000000000)%R
  | c :: older => (alpha * (IZR c / 5000000000) + (1 - alpha) * weighted alpha older)%R
  end.

(** a smoothing factor between 0 and 1 *)
Definition unit_alpha (alpha : f64) : Prop := fis_finite alpha = true /\ (0 <= f2r alpha <= 1)%R.
(** no tick counts less than 0 or more than B events *)
Definition counts_upto (B : Z) (cs : list Z) : Prop := Forall (fun c => 0 <= c <= B) cs.
(** what Rate() returns in state w *)
Definition rate_now (w : ewma) : f64 :=
  match cseq (ewma_body WRate) w with Some (_, WVal v) => v | _ => f_nan end.
(** the argument of math.Exp for an m-minute average, -5/60/m *)
Definition alpha_arg (m : Z) : f64 := fdiv (f_of_int (-1)) (f_of_int (12 * m)).
Definition zsuml (l : list Z) : Z := fold_right Z.add 0 l.

(** ** reading a concurrent execution *)
(** the sum of the amounts added so far *)
Definition fed (ls : list elabel) : Z := fold_right (fun l a => match l with EFed n => n + a | _ => a end) 0 ls.
(** the counts subtracted by ticks, oldest first *)
Definition takens (ls : list elabel) : list Z := flat_map (fun l => match l with ETaken n => [n] | _ => [] end) ls.
(** events fed between the moments at which ticks read the count, oldest
    first, and events fed since the last of them *)
Definition between_step (acc : list Z * Z) (l : elabel) : list Z * Z :=
  match l with
  | EFed n => (fst acc, snd acc + n)
  | ELoaded _ => (fst acc ++ [snd acc], 0)
  | _ => acc
  end.
Definition between (ls : list elabel) : list Z * Z := fold_left between_step ls ([], 0).
(** rates stored *)
Definition rate_stores (ls : list elabel) : list Z :=
  flat_map (fun l => match l with ERateInit b => [b] | ERateUpd b => [b] | _ => [] end) ls.
Definition is_init (l : elabel) : bool := match l with EInitSet => true | _ => false end.
Definition is_rate_init (l : elabel) : bool := match l with ERateInit _ => true | _ => false end.
Definition is_rate_store (l : elabel) : bool := match l with ERateInit _ | ERateUpd _ => true | _ => false end.
Definition is_tick (op : ewma_op) : bool := match op with WTick => true | _ => false end.
Definition nlabels (p : elabel -> bool) (ls : list elabel) : nat := length (filter p ls).

(** goroutine with these observed actions is inside the critical section *)
Definition in_section (ls : list elabel) : bool :=
  fold_left (fun h l => match l with EAcquired => true | EReleased => false | _ => h end) ls false.

(** only goroutine t0 calls Tick *)
Definition single_ticker {L R} (t0 : nat) (tr : list (event L ewma_op R)) : Prop :=
  forall t, In (EInv t WTick) tr -> t = t0.
(** amounts are non-negative and sum to less than 2^63 *)
Definition sane_feeds (ls : list elabel) : Prop :=
  (forall n, In (EFed n) ls -> 0 <= n) /\ fed ls < 2 ^ 63.

(** where stored rates come from: the instantaneous rate of a consumed count,
    or one step of the recurrence from 0 or an earlier stored rate *)
Definition stores_ok (alpha : f64) (ls : list elabel) : Prop :=
  forall pre l post, ls = pre ++ l :: post ->
    match l with
    | ERateInit b => exists n, In n (takens pre) /\ b = float64bits (fdiv (f_of_int n) (f_of_int (5 * 10 ^ 9)))
    | ERateUpd b => exists n r, In n (takens pre) /\ (float64bits r = 0 \/ In (float64bits r) (rate_stores pre)) /\
        b = float64bits (fadd r (fmul alpha (fsub (fdiv (f_of_int n) (f_of_int (5 * 10 ^ 9))) r)))
    | _ => True
    end.

(** goroutine t can take a step *)
Definition can_run {S L Op R} (c : config S L Op R) (t : nat) : Prop :=
  match th c t with
  | Idle => False
  | Busy _ (Ret _) => True
  | Busy _ (Atom e _ _ _) => e (sh c) = true
  end.

(** ** the average as a sequential object: the counts of the ticks and the events since the last *)
Definition average_apply (alpha : f64) (q : list Z * Z) (op : ewma_op) : (list Z * Z) * ewma_ret :=
  match op with
  | WUpdate n => ((fst q, wrap64 (snd q + n)), WNone)
  | WTick => ((fst q ++ [snd q], 0), WNone)
  | WRate => (q, WVal (fmul (float_average alpha (fst q)) (f_of_int (10 ^ 9))))
  | WSnapshot => (q, WSnap (fmul (float_average alpha (fst q)) (f_of_int (10 ^ 9))))
  end.
(** while a Tick runs, the other goroutines are not inside a Tick, Rate or Snapshot *)
Definition ticks_apart (tr : list (event elabel ewma_op ewma_ret)) : Prop :=
  forall a b t u ls op ls', tr = a ++ b -> t <> u -> open_call t a = Some (WTick, ls) -> open_call u a = Some (op, ls') -> exists n, op = WUpdate n.
(** [v] is the rate at a moment of the [j]-th call of goroutine [t]: the average of the counts of
    the first k ticks of [t0], where k is at least the number of ticks that have returned and at
    most the number of those that have been called *)
Definition rate_during (alpha : f64) (t0 t j : nat) (tr : list (event elabel ewma_op ewma_ret)) (v : f64) : Prop :=
  exists a b k op ls, tr = a ++ b /\ length (done_calls t a) = j /\ open_call t a = Some (op, ls) /\
    v = fmul (float_average alpha (firstn k (takens (labels a)))) (f_of_int (10 ^ 9)) /\ (k <= length (takens (labels a)))%nat /\
    (length (filter is_tick (map c_op (done_calls t0 a))) <= k <= length (filter is_tick (calls_of t0 a)))%nat.
