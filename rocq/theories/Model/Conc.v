(** Goroutines over shared memory: an executable interleaving machine.

    A method is a [code]: a sequence of atomic actions on a shared state.
    sync/atomic operations and lock operations are the atomic actions; Go's
    memory model makes sync/atomic operations sequentially consistent, so every
    execution is an interleaving.  Everything else a method does is local and
    folded into the continuation. *)
From Coq Require Import List Arith.
Import ListNotations.

Inductive code (S L A : Type) : Type :=
| Ret (a : A)
    (* the method returns [a] *)
| Atom (enabled : S -> bool) (upd : S -> S) (lab : S -> list L) (k : S -> code S L A).
    (* one atomic action: it waits until [enabled], replaces the state [s] by
       [upd s] and continues with [k s] (the state before the action, i.e. what
       a load, an add or a compare-and-swap gets to see).  [lab s] is what the
       theorems observe of it; the machine ignores it. *)
Arguments Ret {S L A}.
Arguments Atom {S L A}.

Fixpoint cbind {S L A B} (c : code S L A) (f : A -> code S L B) : code S L B :=
  match c with
  | Ret a => f a
  | Atom e u l k => Atom e u l (fun s => cbind (k s) f)
  end.

Definition always {S : Type} (s : S) : bool := true.
Definition silent {S L : Type} (s : S) : list L := [].

(** Thread status: between calls, or inside a call. *)
Inductive status (S L Op R : Type) : Type :=
| Idle
| Busy (op : Op) (c : code S L R).
Arguments Idle {S L Op R}.
Arguments Busy {S L Op R}.

(** What happens in an execution. *)
Inductive event (L Op R : Type) : Type :=
| EInv (t : nat) (op : Op)       (* goroutine t calls op *)
| EStep (t : nat) (l : L)        (* goroutine t performs an observed action *)
| ERes (t : nat) (r : R).        (* goroutine t's call returns r *)
Arguments EInv {L Op R}.
Arguments EStep {L Op R}.
Arguments ERes {L Op R}.

(** The scheduler's choices.  A choice that is impossible (calling while inside
    a call, running an idle or blocked goroutine) does nothing. *)
Inductive choice (Op : Type) : Type :=
| Call (t : nat) (op : Op)
| Run (t : nat).
Arguments Call {Op}.
Arguments Run {Op}.

Record config (S L Op R : Type) := MkConfig { sh : S; th : nat -> status S L Op R }.
Arguments MkConfig {S L Op R}.
Arguments sh {S L Op R}.
Arguments th {S L Op R}.

Definition tset {S L Op R} (f : nat -> status S L Op R) (t : nat) (x : status S L Op R) : nat -> status S L Op R :=
  fun u => if Nat.eqb u t then x else f u.

Section Machine.
Context {S L Op R : Type}.
Variable body : Op -> code S L R.

Definition cstep (c : config S L Op R) (ch : choice Op) : config S L Op R * list (event L Op R) :=
  match ch with
  | Call t op =>
    match th c t with
    | Idle => (MkConfig (sh c) (tset (th c) t (Busy op (body op))), [EInv t op])
    | Busy _ _ => (c, [])
    end
  | Run t =>
    match th c t with
    | Idle => (c, [])
    | Busy op (Ret r) => (MkConfig (sh c) (tset (th c) t Idle), [ERes t r])
    | Busy op (Atom e u l k) =>
      if e (sh c) then (MkConfig (u (sh c)) (tset (th c) t (Busy op (k (sh c)))), map (EStep t) (l (sh c)))
      else (c, [])
    end
  end.

(** the configuration and the trace after a schedule *)
Fixpoint crun (c : config S L Op R) (tr : list (event L Op R)) (sched : list (choice Op)) : config S L Op R * list (event L Op R) :=
  match sched with
  | [] => (c, tr)
  | ch :: rest => let '(c', e) := cstep c ch in crun c' (tr ++ e) rest
  end.

Definition cstart (s : S) : config S L Op R := MkConfig s (fun _ => Idle).

Definition cexec (s : S) (sched : list (choice Op)) : config S L Op R * list (event L Op R) :=
  crun (cstart s) [] sched.
End Machine.
