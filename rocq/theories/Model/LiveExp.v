(** exp/exp.go: the handler's copying of the metrics into the variables of package expvar, while
    the rest of the process goes on (see Live.v for the executions and Expvar.v for the
    variables).

    Simplification.  The variables change by this request alone; requests at the same time are
    in ExpvarConc.v. *)
From Coq Require Import ZArith List String Bool.
From Verif.Model Require Import GoInt GoFloat GoBase World Report Expvar Live.
Import ListNotations.

Section LiveExp.
Variable mexp : f64 -> f64.
(** exp.go:137-156; a metric is published before the next one is read *)
Fixpoint live_sync_each (es : list (string * nat)) (e : expst) : L (expst * Expvar.outcome) :=
  match es with
  | [] => lret (e, Done)
  | (name, x) :: r =>
    lbind (live_read mexp false ps5 x) (fun d =>
      match d with
      | Some d => match publish (exp_vars name d) e with (e1, Done) => live_sync_each r e1 | stop => lret stop end
      | None => lret (e, Panicked msg_unsupported)
      end)
  end.
Definition live_sync (r : nat) (e : expst) : L (expst * Expvar.outcome) :=
  lbind (Live.call mexp (OEach r)) (fun es => live_sync_each (places (fst es) (rv_pairs (snd es))) e).
End LiveExp.
