(** What happens in a program to a counter, a gauge, or a sample, and what it has to show for it. *)
From Coq Require Import ZArith List String Bool Permutation.
From Verif.Model Require Import GoInt GoFloat GoBase ExpDecay World.
From Verif.Spec Require Import Reservoir TimerSpec.
Import ListNotations.
Local Open Scope list_scope.

(** the events of a program, oldest first *)
Fixpoint along {E} (f : state -> op -> orc -> list E) (mexp : f64 -> f64) (st : state) (q : list (op * orc)) : list E :=
  match q with
  | [] => []
  | (c, o) :: r => f st c o ++ along f mexp (fst (step mexp st (c, o))) r
  end.

(** ** counters: Inc, Dec, Clear of the counter at [l] *)
Inductive cevent := CAdded (n : Z) | CCleared.
Definition counted (l : nat) (st : state) (c : op) (_ : orc) : list cevent :=
  let on y := match nth_error (snd st) y with Some (VCounter k) => Nat.eqb k l | _ => false end in
  match c with
  | OInc y n => if on y then [CAdded n] else []
  | ODec y n => if on y then [CAdded (- n)] else []
  | OClear y => if on y then [CCleared] else []
  | _ => []
  end.
(** the sum since the last Clear *)
Definition sum_since (es : list cevent) : Z := fold_left (fun a e => match e with CAdded n => a + n | CCleared => 0 end)%Z es 0%Z.

(** ** gauges: what Update was given *)
Definition set_to (l : nat) (st : state) (c : op) (_ : orc) : list Z :=
  match c with
  | OUpdate y n => match nth_error (snd st) y with Some (VGauge k) => if Nat.eqb k l then [n] else [] | _ => [] end
  | _ => []
  end.
Definition set_tof (l : nat) (st : state) (c : op) (_ : orc) : list f64 :=
  match c with
  | OUpdateF y x => match nth_error (snd st) y with Some (VGaugeF k) => if Nat.eqb k l then [x] else [] | _ => [] end
  | _ => []
  end.

(** ** samples *)
(** the sample a value records on: itself, or the one a histogram or a timer was made with *)
Definition hist_on (w : world) (v : val) : option val :=
  match v with VHist l => match nth_error (heap w) l with Some (OHist s) => Some s | _ => None end | _ => None end.
Definition feeds (w : world) (v : val) : option val :=
  match v with
  | VUniform _ | VExp _ => Some v
  | VHist _ => hist_on w v
  | VTimer l => match nth_error (heap w) l with Some (OTimer h _) => hist_on w h | _ => None end
  | _ => None
  end.
Definition same_sample (s t : val) : bool :=
  match s, t with VUniform l, VUniform k | VExp l, VExp k => Nat.eqb l k | _, _ => false end.
(** Update records a value, on a timer UpdateSince and the end of Time record one too; Clear of
    the sample or of a histogram on it forgets all (timers have no Clear) *)
Definition noted (s : val) (st : state) (c : op) (o : orc) : list revent :=
  let on y (timer : bool) (other : bool) :=
    match nth_error (snd st) y with
    | Some v => match feeds (fst st) v with
                | Some t => same_sample s t && match v with VTimer _ => timer | _ => other end
                | None => false
                end
    | None => false
    end in
  match c with
  | OUpdate y _ => if on y true true then [RecordV (duration c o)] else []
  | OTimeEnd y _ | OUpdateSince y _ => if on y true false then [RecordV (duration c o)] else []
  | OClear y => if on y false true then [ResetAll] else []
  | _ => []
  end.
(** what a reservoir of [n] may hold after the values [r] *)
Definition may_hold (n : Z) (r xs : list Z) : Prop :=
  submultiset xs r /\ slen xs = Z.min (slen r) n /\ (slen r <= n -> Permutation xs r)%Z.
