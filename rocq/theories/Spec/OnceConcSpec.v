(** Registering the runtime's metrics from several goroutines: what should happen. *)
From Coq Require Import List String.
From Verif.Model Require Import Conc OnceConc.
From Verif.Spec Require Import Traces.
Import ListNotations.
Local Open Scope string_scope.
Local Open Scope list_scope.

(** everything a first registration does: all metrics are created, then all are registered *)
Definition plan (g : family) (r : option nat) : list once_act :=
  map Created (creates g) ++ match r with Some x => map (fun nf => Put x (fst nf) (snd nf)) (names g) | None => [] end.
Definition registers (a : once_act) : bool := match a with Created _ | Put _ _ _ => true | Used _ | UsedNil _ => false end.
(** what was created and registered, in order, by whichever goroutines *)
Definition registered (tr : list (event once_act once_op once_ret)) : list once_act := filter registers (labels tr).
(** a call of the Register function has come to its end *)
Definition register_ended (tr : list (event once_act once_op once_ret)) : Prop :=
  exists t c r, In c (done_calls t tr) /\ c_op c = Register r.
(** the goroutine has a step it can take now *)
Definition can_move (c : config once once_act once_op once_ret) (t : nat) : Prop :=
  match th c t with Idle => False | Busy _ (Ret _) => True | Busy _ (Atom e _ _ _) => e (sh c) = true end.
