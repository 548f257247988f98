(** Property C72, continued: a request to the expvar handler while the rest of the process goes
    on.  See Props/LiveProps.v for [gaps] and [acted]; [e] is any state of the variables of
    package expvar. *)
From Coq Require Import ZArith List String Ascii Bool Lia Permutation.
From Verif.Model Require Import GoInt GoFloat GoBase World Report Expvar.
From Verif.Spec Require Import ApiSpec RegistrySpec HealthSpec GetAllSpec ReportSpec ReadOnlySpec ExpvarSpec LiveExpSpec.
From Verif.Proofs Require Import WorldBase WorldStep GetAllProofs HealthProofs RegistryProofs ReportProofs LineProofs LiveProofs ExpvarProofs LiveExpProofs.
From Verif.Props Require Import SnapshotProps HealthProps GetAllProps ReportProps LiveProps.
From Verif.Model Require Import Live LiveExp.
From Verif.Spec Require Import LiveSpec.
Import ListNotations.
Local Open Scope string_scope.
Local Open Scope list_scope.

(** The request makes reading calls only, and runs no health check, however it ends. *)
Theorem C72_expvar_program : forall mexp st gaps r e, woven mexp false st gaps (live_sync mexp r e gaps st).
Proof. intros. apply weaves_woven, weaves_sync. Qed.
(** If it is answered, then the registry showed no health check at the request's first call, and the
    variables of each metric shown then have been set, in some order of the metrics, to values
    of one instant while the request was about that metric.  Other variables are as before, and
    the lock is as before. *)
Theorem C72_expvar : forall mexp p r v b gaps e e', let st := reach mexp p in
  no_NewSampleSnapshot p -> Forall (fun g => no_NewSampleSnapshot (fst g)) gaps ->
  nth_error (snd st) r = Some v -> base v = Some b ->
  let x := live_sync mexp r e gaps st in outcome x = Some (Ok (e', Done)) ->
  exists s0 entries segs sets, acted x = s0 :: List.concat segs /\ List.length segs = List.length sets /\
    visits s0 v (map fst entries) /\ Forall (fun ni => shown s0 v (fst ni) = Some (snd ni)) entries /\
    Forall2 (fun ni sz => copied mexp (fst ni) (snd ni) (fst sz) (snd sz)) entries (combine segs sets) /\
    (forall name, published (pub e') name = match last_set name (List.concat sets) with Some z => Some z | None => published (pub e) name end) /\
    locked e' = locked e.
Proof.
  intros mexp p r v b gaps e e' st N G. pose proof (start_fine mexp p N) as F. fold st in F. clearbody st. intros Er B x H.
  pose proof (ends_of _ _ _ _ H) as E. fold x in E. destruct (sync_visit mexp r e e' _ _ _ _ _ E) as (out & E1 & P).
  assert (H1 : outcome (live_visit mexp (exp_visit mexp) as_it_is r gaps st) = Some (Ok out)) by (now rewrite E1).
  destruct (visit_live mexp _ _ as_it_is r v b gaps st out (exp_visiting mexp) (fun l => Permutation_refl l) F G Er B H1) as (s0 & en & segs & outs & A1 & A2 & A3 & A4 & A5 & A6 & _).
  rewrite E1 in A1. cbn [acted] in A1. subst out. exists s0, en, segs, outs. split; [exact A1|]. split; [exact A6|]. split; [exact A3|]. split; [exact A4|]. split; [exact A5|].
  assert (Nm : Forall (fun nz => numeric (snd nz)) (List.concat outs)).
  { clear - A5 A6. revert segs outs A5 A6. induction en as [|ni en IH]; intros [|sg segs] [|s outs] A5 A6; try discriminate A6; cbn [combine] in A5; inversion A5; subst; [constructor|]. cbn [List.concat]. apply Forall_app. split; [eapply copied_numeric; eauto|]. eapply IH; eauto. }
  split; [now apply publish_done|now apply publish_locked with (l := List.concat outs)].
Qed.

(** ** Examples *)
(** as [running] and [busy], without the health check *)
Definition running_exp : list (op * orc) := firstn 6 running.
Definition int_of (x : option evar) : option Z := match x with Some (EInt n) => Some n | _ => None end.
Definition float_of (x : option evar) : option Z := match x with Some (EFloat f) => Some (float64bits f) | _ => None end.
Definition vars_after {A} (x : exec (expst * A)) : list (string * evar) := match outcome x with Some (Ok (e, _)) => pub e | _ => [] end.
Definition is_done (x : exec (expst * Expvar.outcome)) : bool := match outcome x with Some (Ok (_, Done)) => true | _ => false end.
Example C72_expvar_example : let st := reach one_exp running_exp in
  let x := live_sync one_exp 0 exp_start busy st in
  no_NewSampleSnapshot running_exp /\ Forall (fun g => no_NewSampleSnapshot (fst g)) busy /\ nth_error (snd st) 0 = Some (VReg 0) /\ is_done x = true /\
  map fst (vars_after x) = ["cmdline"; "memstats"; "h.count"; "h.min"; "h.max"; "h.mean"; "h.std-dev"; "h.50-percentile"; "h.75-percentile"; "h.95-percentile"; "h.99-percentile"; "h.999-percentile"; "c"] /\
  int_of (published (vars_after x) "h.count") = Some 1%Z /\ float_of (published (vars_after x) "h.max") = Some (float64bits (f_of_int 7)) /\ int_of (published (vars_after x) "c") = Some 3%Z /\
  snd (step one_exp (at_end x) (OCount 2, o8)) = Some (Ok (RZ 2)) /\
  outcome (live_sync one_exp 0 exp_start (idle 20) (reach one_exp running)) <> None /\ is_done (live_sync one_exp 0 exp_start (idle 20) (reach one_exp running)) = false.
Proof.
  cbv zeta. split; [repeat constructor|]. split; [repeat constructor|]. do 7 (split; [vm_compute; reflexivity|]). split; [|vm_compute; reflexivity].
  assert (X : match outcome (live_sync one_exp 0 exp_start (idle 20) (reach one_exp running)) with None => false | _ => true end = true) by (vm_compute; reflexivity).
  intros E. rewrite E in X. discriminate X.
Qed.
