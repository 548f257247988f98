(** What the expvar handler should publish: for every kind of metric the suffixes of the
    names, the accessors the values come from, and the types of the variables. *)
From Coq Require Import ZArith List String Bool.
From Verif.Model Require Import GoInt GoFloat GoBase World Expvar.
From Verif.Spec Require Import GetAllSpec ReportSpec.
Import ListNotations.
Local Open Scope string_scope.

(** *expvar.Int, *expvar.Float or another type *)
Inductive vtype := TInt | TFloat | TOther.
Definition type_of (x : evar) : vtype := match x with EInt _ => TInt | EFloat _ => TFloat | EOther => TOther end.
(** the type and the value of a published variable *)
Fixpoint published (l : list (string * evar)) (name : string) : option evar :=
  match l with [] => None | (k, x) :: r => if String.eqb name k then Some x else published r name end.
Definition published_as (e : expst) (name : string) (t : vtype) : Prop := exists x, published (pub e) name = Some x /\ type_of x = t.

Definition variable : Type := string * op * vtype.
Section Variables.
Variable x : nat.
Definition rate_variables (mean : string) : list variable :=
  [(".one-minute", OMRate x RK1, TFloat); (".five-minute", OMRate x RK5, TFloat); (".fifteen-minute", OMRate x RK15, TFloat); (mean, OMRate x RKMean, TFloat)].
Definition distribution_variables : list variable :=
  [(".count", OCount x, TInt); (".min", OStat x SMin, TFloat); (".max", OStat x SMax, TFloat); (".mean", OStat x SMean, TFloat); (".std-dev", OStat x SStdDev, TFloat);
   (".50-percentile", OPercentile x (ratio 1 2), TFloat); (".75-percentile", OPercentile x (ratio 3 4), TFloat); (".95-percentile", OPercentile x (ratio 95 100), TFloat);
   (".99-percentile", OPercentile x (ratio 99 100), TFloat); (".999-percentile", OPercentile x (ratio 999 1000), TFloat)].
Definition variables (k : class) : list variable :=
  match k with
  | CCounter => [("", OCount x, TInt)]
  | CGauge => [("", OValue x, TInt)]
  | CGaugeF => [("", OValue x, TFloat)]
  | CHist => distribution_variables
  | CMeter => (".count", OCount x, TInt) :: rate_variables ".mean"
  | CTimer => (distribution_variables ++ rate_variables ".mean-rate")%list
  | _ => []
  end.
End Variables.
(** the metric the registry [v] shows as [nm], which the program holds at [at_ nm], exports
    the variable [name] of type [t] with the value the accessor [c] returns *)
Definition exports (st : state) (v : val) (at_ : string -> nat) (nm : string) (c : op) (name : string) (t : vtype) : Prop :=
  exists i suffix, shown st v nm = Some i /\ In (suffix, c, t) (variables (at_ nm) (cls i)) /\ name = nm ++ suffix.
(** the variable [z] has the type [t] and the value [a] *)
Definition carries (a : rv) (t : vtype) (z : evar) : Prop :=
  match t, a with
  | TInt, RZ n => z = EInt n
  | TFloat, RF x => z = EFloat x
  | TFloat, RZ n => z = EFloat (f_of_int n)
  | _, _ => False
  end.
(** [v] shows a health check *)
Definition has_check (st : state) (v : val) : Prop := exists nm i, shown st v nm = Some i /\ cls i = CHealth.
(** a variable [v] exports has another type already, or is exported with another type too *)
Definition clash (st : state) (v : val) (at_ : string -> nat) (e : expst) : Prop :=
  exists nm c name t, exports st v at_ nm c name t /\
    ((exists t', published_as e name t' /\ t' <> t) \/ exists nm' c' t', exports st v at_ nm' c' name t' /\ t' <> t).
