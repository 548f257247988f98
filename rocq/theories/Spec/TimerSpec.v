(** Events of timers: which calls record one, and what they record. *)
From Coq Require Import ZArith List String Bool.
From Verif.Model Require Import GoInt GoFloat GoBase ExpDecay World.
Import ListNotations.
Local Open Scope nat_scope.
Local Open Scope list_scope.

(** the call records an event on the timer at [l]: Update, UpdateSince, or the end of Time *)
Definition records (l : nat) (en : env) (c : op) : bool :=
  match c with
  | OUpdate y _ | OTimeEnd y _ | OUpdateSince y _ => match nth_error en y with Some (VTimer l') => Nat.eqb l' l | _ => false end
  | _ => false
  end.
(** the duration: the one given, or the time since the one given *)
Definition duration (c : op) (o : orc) : Z :=
  match c with OUpdate _ d => d | OTimeEnd _ ts | OUpdateSince _ ts => time_sub (o_now o) ts | _ => 0%Z end.
(** all durations a program records on the timer, oldest first *)
Fixpoint durations (mexp : f64 -> f64) (l : nat) (st : state) (q : list (op * orc)) : list Z :=
  match q with
  | [] => []
  | (c, o) :: r => (if records l (snd st) c then [duration c o] else []) ++ durations mexp l (fst (step mexp st (c, o))) r
  end.
