(** Health checks: the verdict a check should hold. *)
From Coq Require Import ZArith List String Bool.
From Verif.Model Require Import GoInt GoFloat GoBase World.
From Verif.Spec Require Import RegistrySpec.
Import ListNotations.
Local Open Scope nat_scope.
Local Open Scope list_scope.

(** the verdict after a function's actions, which stop at a panic *)
Fixpoint verdict (acts : list hact) (e : option err) : option err :=
  match acts with
  | [] => e
  | HHealthy :: r => verdict r None
  | HUnhealthy x :: r => verdict r x
  | HPanic :: _ => e
  end.
Definition panics (acts : list hact) : bool := existsb (fun a => match a with HPanic => true | _ => false end) acts.
(** one run of the check's function [f] *)
Definition run_of (o : orc) (f : nat) (e : option err) : option err := verdict (o_health o f e) e.

Definition is_check (l : nat) (v : val) : bool := match v with VHealth k => Nat.eqb k l | _ => false end.
Definition names_it (e : env) (y l : nat) : bool := match nth_error e y with Some v => is_check l v | None => false end.
(** the verdict check [l] holds once call [c] has told it directly *)
Definition told (e : env) (l : nat) (c : op) (er : option err) : option err :=
  match c with
  | OHealthy y => if names_it e y l then None else er
  | OUnhealthy y x => if names_it e y l then x else er
  | _ => er
  end.
(** how many times call [c] is to run the function of check [l] *)
Definition checks (e : env) (w : world) (c : op) (l n : nat) : Prop :=
  match c with
  | OCheck y => n = if names_it e y l then 1 else 0
  | ORunHealthchecks y | OGetAll y =>
    exists ns, NoDup ns /\ n = List.length ns /\
      forall nm, In nm ns <-> exists v b, nth_error e y = Some v /\ base v = Some b /\ registered w b nm = Some (VHealth l)
  | _ => n = 0
  end.
