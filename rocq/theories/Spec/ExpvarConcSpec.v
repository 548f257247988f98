(** What requests served at the same time should do. *)
From Coq Require Import ZArith List String Bool.
From Verif.Model Require Import GoInt GoFloat GoBase World Conc Expvar ExpvarConc.
From Verif.Spec Require Import ExpvarSpec.
Import ListNotations.
Local Open Scope string_scope.

(** the requests of a schedule *)
Definition asked (sched : list (choice request)) (r : request) : Prop := exists t, In (Call t r) sched.
(** in the requests a variable has the type it has already, if it is there, and one type only *)
Definition one_type (t0 : list (string * evar)) (sched : list (choice request)) : Prop :=
  (forall r name x, asked sched r -> In (name, x) (sets r) -> type_of x <> TOther /\ forall y, published t0 name = Some y -> type_of y = type_of x) /\
  (forall r r' name x x', asked sched r -> asked sched r' -> In (name, x) (sets r) -> In (name, x') (sets r') -> type_of x = type_of x').
(** a variable that is not there yet is set by one handler only *)
Definition one_handler (t0 : list (string * evar)) (sched : list (choice request)) : Prop :=
  forall r r' name x x', asked sched r -> asked sched r' -> In (name, x) (sets r) -> In (name, x') (sets r') -> published t0 name = None -> handler r = handler r'.
(** the last of a sequence of settings of [name] *)
Definition last_set (name : string) (l : list (string * evar)) : option evar :=
  fold_left (fun a kx => if String.eqb name (fst kx) then Some (snd kx) else a) l None.
Definition blank (x : evar) : Prop := x = EInt 0 \/ exists z, x = EFloat z /\ z = f_zero.
