(** Specification of forward-decaying priorities, without any reservoir: a
    ledger of every observation since the last restart with its priority at the
    current landmark. *)
From Coq Require Import ZArith List Permutation.
From Verif.Model Require Import GoInt GoFloat ExpDecay.
From Verif.Spec Require Import Reservoir.
Import ListNotations.
Open Scope Z_scope.

Record ledger := MkLedger {
  l_landmark : Z;               (* the landmark time, ns *)
  l_obs : list (f64 * Z)        (* all observations since the restart, oldest first: priority, value *)
}.

Definition one_hour : Z := 60 * 60 * 10 ^ 9.

(** seconds elapsed since the landmark *)
Definition age (L : ledger) (t : Z) : f64 := seconds (time_sub t (l_landmark L)).

(** an observation at time [t]: priority exp(alpha*age)/u at the current
    landmark; if the landmark is more than an hour old it moves to [t], which
    divides all priorities by exp(alpha*age) *)
Definition ledger_step (mexp : f64 -> f64) (alpha : f64) (L : ledger) (o : xop) : ledger :=
  match o with
  | XUpdate t v u =>
    let obs := l_obs L ++ [(fdiv (mexp (fmul (age L t) alpha)) u, v)] in
    if l_landmark L + one_hour <? t
    then MkLedger t (map (fun pv => (fmul (fst pv) (mexp (fmul (fneg alpha) (age L t))), snd pv)) obs)
    else MkLedger (l_landmark L) obs
  | XClear t => MkLedger t []
  | XRead => L
  end.

Definition ledger_run (mexp : f64 -> f64) (alpha : f64) (now : Z) (h : list xop) : ledger :=
  fold_left (ledger_step mexp alpha) h (MkLedger now []).

(** no priority has been NaN at any time so far *)
Definition never_nan (mexp : f64 -> f64) (alpha : f64) (now : Z) (h : list xop) : Prop :=
  forall p q, h = p ++ q ->
    Forall (fun pv => fis_nan (fst pv) = false) (l_obs (ledger_run mexp alpha now p)).

(** an entry as priority and value; multiplying the priority *)
Definition pr (e : entry) : f64 * Z := (e_k e, e_v e).
Definition pscale (f : f64) (pv : f64 * Z) : f64 * Z := (fmul (fst pv) f, snd pv).

Definition xop_event (o : xop) : revent :=
  match o with XUpdate _ v _ => RecordV v | XClear _ => ResetAll | XRead => NoEffect end.

(** what is assumed of math.Exp: its results are not negative *)
Definition mexp_nonneg (mexp : f64 -> f64) : Prop :=
  forall x, fis_nan (mexp x) = false -> fle f_zero (mexp x) = true.

(** the same update with the rescaling switched off *)
Definition without_rescale (s : expdecay) (t : Z) : expdecay :=
  MkExp (x_alpha s) (x_count s) (x_size s) (x_t0 s) t (x_heap s).
