(** exp/exp.go: requests served at the same time, by one handler or by several.

    Simplifications.  A request is the list of the variables it sets with their values, in order
    (Expvar.v says which these are; a registry without health checks).  expvar.Get, expvar.Publish
    and the Set methods are atomic actions: package expvar protects its table, and a variable is
    changed with sync/atomic.  A variable that has been published stays in the table, so that the
    pointer to it which a request has obtained is represented by its name.  Nothing else of the
    process publishes variables.  net/http runs each request in a goroutine of its own and recovers
    panics: a request that panics ends, the mutex it holds stays locked. *)
From Coq Require Import ZArith List String Bool.
From Verif.Model Require Import GoInt GoFloat GoBase World Conc Expvar.
Import ListNotations.
Open Scope string_scope.

(** the variables of package expvar, and expvarLock of every handler, exp.go:14-17 *)
Record exps := MkExps { tbl : list (string * evar); held : nat -> bool }.
Definition hold (h : nat) (b : bool) (s : exps) : exps := MkExps (tbl s) (fun i => if Nat.eqb i h then b else held s i).
Definition store (name : string) (x : evar) (s : exps) : exps := MkExps (var_put name x (tbl s)) (held s).
(** a request to the handler [h] *)
Record request := Req { handler : nat; sets : list (string * evar) }.
(** expvar.Publish: log.Panicln("Reuse of exported var name:", name) *)
Definition msg_reuse : string := "Reuse of exported var name".
Notation xcode := (code exps (string * evar) outcome).

(** new(expvar.Int), new(expvar.Float) *)
Definition zero_of (x : evar) : evar := match x with EInt _ => EInt 0 | EFloat _ => EFloat f_zero | EOther => EOther end.
(** v = p.( *expvar.Int) succeeds *)
Definition same_type (x y : evar) : bool := match x, y with EInt _, EInt _ => true | EFloat _, EFloat _ => true | _, _ => false end.
Section Code.
Variables (h : nat) (name : string) (x : evar).
(** v.Set(x); observed *)
Definition c_set (k : xcode) : xcode := Atom always (store name x) (fun _ => [(name, x)]) (fun _ => k).
(** exp.go:63, 77 *)
Definition c_unlock (k : xcode) : xcode := Atom always (hold h false) silent (fun _ => c_set k).
(** exp.go:61, 75 *)
Definition c_publish (k : xcode) : xcode :=
  Atom always (fun s => match var_get name (tbl s) with None => store name (zero_of x) s | Some _ => s end) silent
    (fun s => match var_get name (tbl s) with None => c_unlock k | Some _ => Ret (Panicked msg_reuse) end).
(** exp.go:56-59, 70-73 *)
Definition c_get (k : xcode) : xcode :=
  Atom always (fun s => s) silent
    (fun s => match var_get name (tbl s) with
              | None => c_publish k
              | Some y => if same_type y x then c_unlock k else Ret (Panicked msg_assert)
              end).
(** exp.go:53-65, 67-79 and the call of Set *)
Definition c_one (k : xcode) : xcode := Atom (fun s => negb (held s h)) (hold h true) silent (fun _ => c_get k).
End Code.
(** exp.go:137-156 *)
Fixpoint c_sync (h : nat) (l : list (string * evar)) : xcode :=
  match l with [] => Ret Done | (name, x) :: r => c_one h name x (c_sync h r) end.
Definition request_body (r : request) : xcode := c_sync (handler r) (sets r).
Definition expvar_exec (t0 : list (string * evar)) (sched : list (choice request)) := cexec request_body (MkExps t0 (fun _ => false)) sched.
