(** StandardHealthcheck (healthcheck.go:37-61) used by several goroutines.  Its field err is not
    synchronized, and it is an interface value: two words, one for the type and one for the data,
    which are read and written one after the other.

    Every access to a word is an action here.  In Go such accesses, if unordered, are a data race
    and may do worse than happen in some order; what goes wrong here goes wrong there.
    Simplifications: the type word comes first; the function of the check returns, and all it does
    to the check is a list of calls of Healthy and Unhealthy, which is given with the call. *)
From Coq Require Import ZArith List.
From Verif.Model Require Import Conc.
Import ListNotations.
Open Scope Z_scope.

(** an error: the words for its type and its data, both 0 for nil *)
Definition iface : Type := Z * Z.
Definition nil_error : iface := (0, 0).
Inductive word := TypeWord | DataWord.
Inductive access := Reads (w : word) | Writes (w : word).

Inductive health_op :=
| HError | HHealthy | HUnhealthy (e : iface)
| HCheck (verdicts : list iface).   (* what the function sets, nil for Healthy *)
Inductive health_ret := HDone | HErr (e : iface).

Notation hcode := (code iface access health_ret).
Definition store_type (e : iface) (k : hcode) : hcode := Atom always (fun s => (fst e, snd s)) (fun _ => [Writes TypeWord]) (fun _ => k).
Definition store_data (e : iface) (k : hcode) : hcode := Atom always (fun s => (fst s, snd e)) (fun _ => [Writes DataWord]) (fun _ => k).
(** h.err = e *)
Definition store_err (e : iface) (k : hcode) : hcode := store_type e (store_data e k).
(** healthcheck.go:44: h.f(h) *)
Fixpoint verdicts_c (es : list iface) (k : hcode) : hcode := match es with [] => k | e :: r => store_err e (verdicts_c r k) end.
(** healthcheck.go:48-50 *)
Definition load_data (t : Z) : hcode := Atom always (fun s => s) (fun _ => [Reads DataWord]) (fun s => Ret (HErr (t, snd s))).
Definition load_err : hcode := Atom always (fun s => s) (fun _ => [Reads TypeWord]) (fun s => load_data (fst s)).

Definition health_body (op : health_op) : hcode :=
  match op with
  | HError => load_err
  | HHealthy => store_err nil_error (Ret HDone)                  (* healthcheck.go:53-55 *)
  | HUnhealthy e => store_err e (Ret HDone)                      (* healthcheck.go:59-61 *)
  | HCheck es => Atom always (fun s => s) silent (fun _ => verdicts_c es (Ret HDone))   (* h.f is never changed *)
  end.
(** healthcheck.go:17: the check starts without an error *)
Definition health_exec (sched : list (choice health_op)) := cexec health_body nil_error sched.
