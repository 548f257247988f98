(** What a request to the expvar handler should leave behind while the rest of the process
    goes on. *)
From Coq Require Import ZArith List String Bool.
From Verif.Model Require Import GoInt GoFloat GoBase World Expvar.
From Verif.Spec Require Import GetAllSpec ReportSpec ExpvarSpec.
Import ListNotations.

(** the last of the assignments [sets] to the variable [name] *)
Fixpoint last_set (name : string) (sets : list (string * evar)) : option evar :=
  match sets with
  | [] => None
  | (n, z) :: sets => match last_set name sets with Some y => Some y | None => if String.eqb name n then Some z else None end
  end.
(** [sets] are the variables of the metric [i], which is registered as [nm]: names and types are
    as they should be, and all values are those of one of the states [seg]; it is no health check *)
Definition copied (mexp : f64 -> f64) (nm : string) (i : val) (seg : list state) (sets : list (string * evar)) : Prop :=
  cls i <> CHealth /\ exists x s o, In s seg /\ nth_error (snd s) x = Some i /\
    Forall2 (fun nz va => let '(suffix, c, t) := va in
      fst nz = (nm ++ suffix)%string /\ exists a, answer mexp s o standard x c = Some (Ok a) /\ carries a t (snd nz)) sets (variables x (cls i)).
