(** What happens to a meter, or to an average, in a program, and what it shows then. *)
From Coq Require Import ZArith List String Bool.
From Verif.Model Require Import GoInt GoFloat GoBase ExpDecay Conc Ewma Meter World.
From Verif.Spec Require Import EwmaSpec RegistrySpec.
Import ListNotations.
Local Open Scope list_scope.

(** [n] events at a time, or a tick of the arbiter *)
Inductive mevent := EMark (n now : Z) | ETick (now : Z).
Definition at_time (e : mevent) : Z := match e with EMark _ t | ETick t => t end.
Definition amount (e : mevent) : Z := match e with EMark n _ => n | ETick _ => 0 end.
Definition as_ewma (e : mevent) : ewma_op := match e with EMark n _ => WUpdate n | ETick _ => WTick end.

(** a running meter: Mark of it (n events), a call that records on a timer that has it and
    returns (one event; the histogram's update comes first and may panic), a tick *)
Definition happens (k : nat) (st : state) (c : op) (r : option (res rv)) (now : Z) : list mevent :=
  if memn k (alive (fst st)) then
    match c with
    | OMark y n => match nth_error (snd st) y with Some (VMeter l) => if Nat.eqb l k then [EMark n now] else [] | _ => [] end
    | OUpdate y _ | OTimeEnd y _ | OUpdateSince y _ =>
        match nth_error (snd st) y, r with
        | Some (VTimer l), Some (Ok _) => match meter_of (fst st) (VTimer l) with Some k' => if Nat.eqb k' k then [EMark 1 now] else [] | None => [] end
        | _, _ => []
        end
    | ORound => [ETick now]
    | _ => []
    end
  else [].
Fixpoint happened (mexp : f64 -> f64) (k : nat) (st : state) (q : list (op * orc)) : list mevent :=
  match q with
  | [] => []
  | (c, o) :: q' => happens k st c (snd (step mexp st (c, o))) (o_now o) ++ happened mexp k (fst (step mexp st (c, o))) q'
  end.

(** ** what is shown after these events *)
Definition tally (es : list mevent) : Z := fold_right (fun e a => (amount e + a)%Z) 0%Z es.
(** events per second: the recurrence of EwmaSpec.v over the events per tick, 5/60/m of a minute each *)
Definition per_second (alpha : f64) (h : list ewma_op) : f64 :=
  fmul (float_average alpha (map wrap64 (tick_counts h))) (f_of_int (10 ^ 9)).
Definition minutes (mexp : f64 -> f64) (m : Z) : f64 := fsub (f_of_int 1) (mexp (alpha_arg m)).
(** the count over the seconds from when the meter was made until the last event or tick *)
Definition mean_rate (t0 : Z) (es : list mevent) : f64 :=
  match es with
  | [] => f_zero
  | e :: r => fdiv (f_of_int (wrap64 (tally es))) (ExpDecay.seconds (time_sub (at_time (last r e)) t0))
  end.
Definition shown (mexp : f64 -> f64) (t0 : Z) (es : list mevent) (k : ratek) : f64 :=
  match k with
  | RK1 => per_second (minutes mexp 1) (map as_ewma es)
  | RK5 => per_second (minutes mexp 5) (map as_ewma es)
  | RK15 => per_second (minutes mexp 15) (map as_ewma es)
  | RKMean => mean_rate t0 es
  end.

(** ** averages of the program's own *)
Definition touched (l : nat) (st : state) (c : op) : list ewma_op :=
  let own y := match nth_error (snd st) y with Some (VEwma l') => Nat.eqb l' l | _ => false end in
  match c with
  | OUpdate y n => if own y then [WUpdate n] else []
  | OTick y => if own y then [WTick] else []
  | _ => []
  end.
Fixpoint averaged (mexp : f64 -> f64) (l : nat) (st : state) (q : list (op * orc)) : list ewma_op :=
  match q with
  | [] => []
  | (c, o) :: q' => touched l st c ++ averaged mexp l (fst (step mexp st (c, o))) q'
  end.
