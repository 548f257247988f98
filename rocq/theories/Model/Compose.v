(** Many objects used by the same goroutines: the machine of Conc.v over all of them.  A call is
    a call of one object, and its actions are actions on that object alone: this is the case for
    objects that share no fields and whose methods do not call each other. *)
From Coq Require Import List Arith.
From Verif.Model Require Import Conc.
Import ListNotations.

(** an object: its fields, what is observed of its actions, its calls and their results, the
    code of its methods, and how it starts *)
Record object := MkObject {
  o_state : Type; o_label : Type; o_op : Type; o_ret : Type;
  o_body : o_op -> code o_state o_label o_ret; o_start : o_state }.

(** a family with one member replaced *)
Definition put {A : nat -> Type} (f : forall i, A i) (i : nat) (x : A i) : forall j, A j :=
  fun j => match Nat.eq_dec i j with left e => eq_rect i A x j e | right _ => f j end.

Section Product.
Variable O : nat -> object.
Definition all_states := forall i, o_state (O i).
Definition any_label := {i : nat & o_label (O i)}.
(** a call of the object [i] *)
Definition any_op := {i : nat & o_op (O i)}.
Definition any_ret := {i : nat & o_ret (O i)}.
Fixpoint at_object (i : nat) (c : code (o_state (O i)) (o_label (O i)) (o_ret (O i))) : code all_states any_label any_ret :=
  match c with
  | Ret r => Ret (existT _ i r)
  | Atom e u l k => Atom (fun s => e (s i)) (fun s => put s i (u (s i))) (fun s => map (existT _ i) (l (s i))) (fun s => at_object i (k (s i)))
  end.
Definition objects_body (op : any_op) : code all_states any_label any_ret := at_object (projT1 op) (o_body (O (projT1 op)) (projT2 op)).
Definition objects_start : all_states := fun i => o_start (O i).
Definition objects_exec (sched : list (choice any_op)) := cexec objects_body objects_start sched.
End Product.
