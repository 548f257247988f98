(** exp/exp.go: the handler that copies the metrics of a registry into the variables
    of package expvar.

    Simplifications.  One request at a time (a request that blocks is [Stuck]).  What
    the handler prints after the copying (exp.go:22-33: all variables of package
    expvar) is in ExpPrint.v.  As in Report.v the snapshot of a metric is read at once
    and not between the calls of Set. *)
From Coq Require Import ZArith List String Bool.
From Verif.Model Require Import GoInt GoFloat GoBase World Report.
Import ListNotations.
Open Scope string_scope.

(** *expvar.Int, *expvar.Float, or a variable of another type, such as the variables
    cmdline and memstats of package expvar itself *)
Inductive evar := EInt (n : Z) | EFloat (x : f64) | EOther.
(** the variables of package expvar (global to the process), and expvarLock of the
    handler, exp.go:14-17 *)
Record expst := MkExp { pub : list (string * evar); locked : bool }.
Inductive outcome := Done | Panicked (msg : string) | Stuck.
(** expvar.Get *)
Fixpoint var_get (name : string) (l : list (string * evar)) : option evar :=
  match l with [] => None | (k, x) :: r => if String.eqb k name then Some x else var_get name r end.
Definition expvar_get (name : string) (e : expst) : option evar := var_get name (pub e).
(** expvar.Publish of a variable whose name is new; v.Set of one that is published *)
Fixpoint var_put (name : string) (x : evar) (l : list (string * evar)) : list (string * evar) :=
  match l with [] => [(name, x)] | (k, y) :: r => if String.eqb k name then (k, x) :: r else (k, y) :: var_put name x r end.
Definition expvar_put (name : string) (x : evar) (e : expst) : expst := MkExp (var_put name x (pub e)) (locked e).
Definition lock_ (b : bool) (e : expst) : expst := MkExp (pub e) b.
Definition msg_assert : string := "interface conversion".
Definition msg_unsupported : string := "unsupported type".

(** exp.go:53-65.  The lock is not released when the type assertion panics. *)
Definition get_int (name : string) (e : expst) : expst * outcome :=
  if locked e then (e, Stuck) else
  let e1 := lock_ true e in
  match expvar_get name e1 with
  | Some (EInt _) => (lock_ false e1, Done)
  | Some _ => (e1, Panicked msg_assert)
  | None => (lock_ false (expvar_put name (EInt 0) e1), Done)
  end.
(** exp.go:67-79 *)
Definition get_float (name : string) (e : expst) : expst * outcome :=
  if locked e then (e, Stuck) else
  let e1 := lock_ true e in
  match expvar_get name e1 with
  | Some (EFloat _) => (lock_ false e1, Done)
  | Some _ => (e1, Panicked msg_assert)
  | None => (lock_ false (expvar_put name (EFloat f_zero) e1), Done)
  end.
(** exp.getInt(name).Set(n), exp.getFloat(name).Set(x) *)
Definition publish_one (name : string) (x : evar) (e : expst) : expst * outcome :=
  match x with
  | EInt _ => match get_int name e with (e1, Done) => (expvar_put name x e1, Done) | r => r end
  | EFloat _ => match get_float name e with (e1, Done) => (expvar_put name x e1, Done) | r => r end
  | EOther => (e, Done)
  end.
Fixpoint publish (l : list (string * evar)) (e : expst) : expst * outcome :=
  match l with
  | [] => (e, Done)
  | (name, x) :: l' => match publish_one name x e with (e1, Done) => publish l' e1 | r => r end
  end.
Definition dist_vars (name : string) (n mn mx : Z) (me sd : f64) (ps : list f64) : list (string * evar) :=
  [(name ++ ".count", EInt n); (name ++ ".min", EFloat (f_of_int mn)); (name ++ ".max", EFloat (f_of_int mx));
   (name ++ ".mean", EFloat me); (name ++ ".std-dev", EFloat sd);
   (name ++ ".50-percentile", EFloat (nth_f 0 ps)); (name ++ ".75-percentile", EFloat (nth_f 1 ps)); (name ++ ".95-percentile", EFloat (nth_f 2 ps));
   (name ++ ".99-percentile", EFloat (nth_f 3 ps)); (name ++ ".999-percentile", EFloat (nth_f 4 ps))].
(** exp.go:81-135: publishCounter, publishGauge, publishGaugeFloat64, publishHistogram,
    publishMeter, publishTimer *)
Definition exp_vars (name : string) (d : reading) : list (string * evar) :=
  match d with
  | RdCounter n => [(name, EInt n)]
  | RdGauge n => [(name, EInt n)]
  | RdGaugeF x => [(name, EFloat x)]
  | RdHealth _ => []
  | RdHist n mn mx me sd ps => dist_vars name n mn mx me sd ps
  | RdMeter n r1 r5 r15 rm =>
    [(name ++ ".count", EInt n); (name ++ ".one-minute", EFloat r1); (name ++ ".five-minute", EFloat r5); (name ++ ".fifteen-minute", EFloat r15); (name ++ ".mean", EFloat rm)]
  | RdTimer n mn mx me sd ps r1 r5 r15 rm =>
    app (dist_vars name n mn mx me sd ps)
      [(name ++ ".one-minute", EFloat r1); (name ++ ".five-minute", EFloat r5); (name ++ ".fifteen-minute", EFloat r15); (name ++ ".mean-rate", EFloat rm)]
  end.
(** exp.go:137-156; there is no case for Healthcheck.  (What is registered is one of the
    metric types.) *)
Fixpoint sync_each (es : list (string * val)) (o : orc) (w : world) (e : expst) : world * (expst * outcome) :=
  match es with
  | [] => (w, (e, Done))
  | (name, v) :: r =>
    match read_metric false ps5 v o w with
    | (w1, Ok (Some d)) => match publish (exp_vars name d) e with (e1, Done) => sync_each r o w1 e1 | x => (w1, x) end
    | (w1, Ok None) => (w1, (e, Panicked msg_unsupported))
    | (w1, Panic m) => (w1, (e, Panicked m))
    end
  end.
(** syncToExpvar, the first thing expHandler does *)
Definition exp_sync (r : val) (o : orc) (w : world) (e : expst) : world * (expst * outcome) :=
  match reg_each r o w with
  | (w1, Ok es) => sync_each es o w1 e
  | (w1, Panic m) => (w1, (e, Panicked m))
  end.
(** the variables of a process that has just started: expvar's init function publishes
    its own *)
Definition exp_start : expst := MkExp [("cmdline", EOther); ("memstats", EOther)] false.
