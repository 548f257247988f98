(** Data races, progress, and states explained by an order of calls. *)
From Coq Require Import List.
From Verif.Model Require Import Conc.
From Verif.Spec Require Import Traces.
Import ListNotations.

Section Machine.
Context {S L Op R : Type}.
Variable body : Op -> code S L R.
Notation conf := (config S L Op R).

(** goroutine [t] is about to perform an action that is observed (an access to guarded fields) *)
Definition accessing (c : conf) (t : nat) : Prop := match th c t with Busy _ (Atom _ _ l _) => l (sh c) <> [] | _ => False end.
(** goroutine [t] is inside a call and not blocked *)
Definition can_run (c : conf) (t : nat) : Prop :=
  match th c t with Idle => False | Busy _ (Ret _) => True | Busy _ (Atom e _ _ _) => e (sh c) = true end.
(** however the goroutines are scheduled, if no further calls are made, all calls return: there
    is no deadlock and no infinite execution *)
Inductive all_return (c : conf) : Prop :=
| ret_quiet : quiet c -> all_return c
| ret_step : (exists t, can_run c t) -> (forall t, can_run c t -> all_return (fst (cstep body c (Run t)))) -> all_return c.
End Machine.

(** the state of a sequential object after the calls [ops] *)
Definition after_calls {Q Op R} (apply : Q -> Op -> Q * R) (q : Q) (ops : list Op) : Q := fold_left (fun q op => fst (apply q op)) ops q.
