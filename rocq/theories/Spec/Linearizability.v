(** Linearizability, by linearization points: a history of invocations and
    responses is linearizable if one instant can be inserted between each
    completed call's invocation and response (for pending calls, possibly after
    the invocation) such that every response is what the sequential object
    answers when the calls are applied in the order of those instants. *)
From Coq Require Import List Arith.
Import ListNotations.

Inductive hevent (Op R : Type) : Type :=
| HInv (t : nat) (op : Op)
| HRes (t : nat) (r : R).
Arguments HInv {Op R}.
Arguments HRes {Op R}.

(** a history with instants *)
Inductive xevent (Op R : Type) : Type :=
| XInv (t : nat) (op : Op)
| XLin (t : nat)
| XRes (t : nat) (r : R).
Arguments XInv {Op R}.
Arguments XLin {Op R}.
Arguments XRes {Op R}.

Definition erase {Op R} (l : list (xevent Op R)) : list (hevent Op R) :=
  flat_map (fun e => match e with XInv t op => [HInv t op] | XLin _ => [] | XRes t r => [HRes t r] end) l.

Section Lin.
Context {Q Op R : Type}.
Variable apply : Q -> Op -> Q * R.       (* the sequential object *)

Inductive tstat := TIdle | TPending (op : Op) | TDone (r : R).

Definition tupd (f : nat -> tstat) (t : nat) (x : tstat) : nat -> tstat :=
  fun u => if Nat.eqb u t then x else f u.

(** [valid q f l q' f']: starting from object state q and goroutine states f,
    the extended history l is legal and leads to q', f' *)
Inductive valid : Q -> (nat -> tstat) -> list (xevent Op R) -> Q -> (nat -> tstat) -> Prop :=
| valid_nil q f : valid q f [] q f
| valid_inv q f l q' f' t op : valid q f l q' f' -> f' t = TIdle ->
    valid q f (l ++ [XInv t op]) q' (tupd f' t (TPending op))
| valid_lin q f l q' f' t op q'' r : valid q f l q' f' -> f' t = TPending op -> apply q' op = (q'', r) ->
    valid q f (l ++ [XLin t]) q'' (tupd f' t (TDone r))
| valid_res q f l q' f' t r : valid q f l q' f' -> f' t = TDone r ->
    valid q f (l ++ [XRes t r]) q' (tupd f' t TIdle).

Definition linearizable (q0 : Q) (h : list (hevent Op R)) : Prop :=
  exists l q f, erase l = h /\ valid q0 (fun _ => TIdle) l q f.
End Lin.
Arguments TIdle {Op R}.
Arguments TPending {Op R}.
Arguments TDone {Op R}.
