(** What the JSON export should say while the rest of the process goes on. *)
From Coq Require Import ZArith List String Bool.
From Verif.Model Require Import GoInt GoFloat GoBase World.
From Verif.Spec Require Import ApiSpec RegistrySpec GetAllSpec ReportSpec WriteSpec JsonSpec.
Import ListNotations.
Local Open Scope string_scope.

(** the error of the health check [i], asked for some time after the check was run *)
Definition error_seen (mexp : f64 -> f64) (i : val) (seg : list state) (e : option err) : Prop :=
  exists x s1 s2 o1 o2 q, In s1 seg /\ In s2 seg /\ nth_error (snd s1) x = Some i /\ s2 = run mexp s1 ((OCheck x, o1) :: q) /\
    snd (step mexp s2 (OError x, o2)) = Some (Ok (RErr e)).
(** the text of the metric [i]: what it answers in one of the states [seg] *)
Definition text_tells (quote : string -> string) (number : f64 -> string) (error_text : Z -> string) (mexp : f64 -> f64) (i : val) (seg : list state) (t : string) : Prop :=
  exists ms, t = object_text quote ms /\ ascending (map fst ms) /\
    if class_eqb (cls i) CHealth then exists e s, ms = [("error", s)] /\ error_seen mexp i seg e /\ value_text quote number error_text (RErr e) s
    else exists x s o, In s seg /\ nth_error (snd s) x = Some i /\ (forall k, In k (map fst ms) <-> In k (map fst (accessors (cls i) x))) /\
      forall k u, In (k, u) ms -> exists c a, In (k, c) (accessors (cls i) x) /\ answer mexp s o standard x c = Some (Ok a) /\ value_text quote number error_text a u.
(** the metric [i] answers NaN or an infinity in one of the states [seg] *)
Definition unwritable (mexp : f64 -> f64) (i : val) (seg : list state) : Prop :=
  exists x s o k c y, In s seg /\ nth_error (snd s) x = Some i /\ In (k, c) (accessors (cls i) x) /\ answer mexp s o standard x c = Some (Ok (RF y)) /\ fis_finite y = false.
(** the metrics visited, with the states in which each was asked *)
Definition visited : Type := list (string * val * list state).
Definition covers (s0 : state) (v : val) (vs : visited) : Prop :=
  visits s0 v (map (fun t => fst (fst t)) vs) /\ Forall (fun t => shown s0 v (fst (fst t)) = Some (snd (fst t))) vs.
