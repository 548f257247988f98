(** Health checks used by several goroutines: what they should do, and what a data race is. *)
From Coq Require Import ZArith List.
From Verif.Model Require Import Conc HealthConc.
From Verif.Spec Require Import Traces.
Import ListNotations.
Open Scope Z_scope.

(** a health check used by one goroutine: it has an error, nil at first *)
Definition health_apply (q : iface) (op : health_op) : iface * health_ret :=
  match op with
  | HError => (q, HErr q)
  | HHealthy => (nil_error, HDone)
  | HUnhealthy e => (e, HDone)
  | HCheck es => (last es q, HDone)
  end.
(** errors that a call sets *)
Definition sets_of (op : health_op) : list iface :=
  match op with HError => [] | HHealthy => [nil_error] | HUnhealthy e => [e] | HCheck es => es end.
(** while a goroutine is in a call that sets the error, the others are in none *)
Definition setters_alone (tr : list (event access health_op health_ret)) : Prop :=
  forall a b t u op ls op' ls', tr = a ++ b -> t <> u -> open_call t a = Some (op, ls) -> open_call u a = Some (op', ls') -> sets_of op = [].
(** two goroutines are about to access the same word, and one of them writes *)
Definition about_to (c : config iface access health_op health_ret) (t : nat) (x : access) : Prop :=
  exists op e u lab k, th c t = Busy op (Atom e u lab k) /\ e (sh c) = true /\ In x (lab (sh c)).
Definition health_race (c : config iface access health_op health_ret) : Prop :=
  exists t u w, t <> u /\ about_to c t (Writes w) /\ (about_to c u (Writes w) \/ about_to c u (Reads w)).
(** nil, or an error that some call sets *)
Definition known (tr : list (event access health_op health_ret)) (e : iface) : Prop := e = nil_error \/ exists op, In op (calls tr) /\ In e (sets_of op).
