(** Properties C01-C03: counters and gauges under arbitrary interleavings. *)
From Coq Require Import ZArith List Permutation.
From Verif.Model Require Import GoInt GoFloat Conc CounterGauge.
From Verif.Spec Require Import Linearizability Traces Objects.
From Verif.Proofs Require Import IntFacts FloatFacts LinProofs CounterProofs.
Import ListNotations.
Open Scope Z_scope.

(** ** C01.  [labels tr] lists the calls whose atomic action has happened, in
    the order of these actions; [net] is the exact sum of a sequence of calls
    since its last Clear. *)
Theorem C01_value_is_net_of_effects : forall sched,
  sh (fst (cexec counter_body counter_init sched)) = wrap64 (net (labels (snd (cexec counter_body counter_init sched)))).
Proof. exact counter_value. Qed.
Print Assumptions C01_value_is_net_of_effects.

(** Count() returns it *)
Theorem C01_count_returns_it : forall sched t,
  th (fst (cexec counter_body counter_init sched)) t = Idle ->
  snd (cexec counter_body counter_init (sched ++ [Call t CCount; Run t; Run t])) =
  snd (cexec counter_body counter_init sched) ++
    [EInv t CCount; EStep t CCount; ERes t (RInt (wrap64 (net (labels (snd (cexec counter_body counter_init sched))))))].
Proof. exact counter_read. Qed.
Print Assumptions C01_count_returns_it.

(** when no call is in progress every call made has had its effect, exactly once *)
Theorem C01_every_call_takes_effect_once : forall sched,
  quiet (fst (cexec counter_body counter_init sched)) ->
  Permutation (calls (snd (cexec counter_body counter_init sched))) (labels (snd (cexec counter_body counter_init sched))).
Proof. exact counter_quiet. Qed.
Print Assumptions C01_every_call_takes_effect_once.

(** without Clear the final value depends on the calls only *)
Theorem C01_interleaving_independent : forall sched,
  let '(c, tr) := cexec counter_body counter_init sched in
  quiet c -> existsb is_cclear (calls tr) = false -> sh c = wrap64 (net (calls tr)).
Proof. exact counter_no_clear. Qed.
Print Assumptions C01_interleaving_independent.

(* two goroutines, overlapping calls, a Dec of the smallest int64, overflow *)
Definition ex_sched : list (choice counter_op) :=
  [Call 1 (CInc max_int64); Call 2 (CDec min_int64); Run 2; Run 1; Call 3 CCount; Run 1; Run 3; Run 2; Run 3;
   Call 1 (CInc 5); Run 1; Run 1].
Example C01_example :
  let '(c, tr) := cexec counter_body counter_init ex_sched in
  quiet c /\ existsb is_cclear (calls tr) = false /\ sh c = 4 /\ net (calls tr) = 2 ^ 64 + 4.
Proof.
  pose proof (quiet_check counter_body counter_init ex_sched ltac:(vm_compute; reflexivity)) as Q.
  assert (H1 : existsb is_cclear (calls (snd (cexec counter_body counter_init ex_sched))) = false) by (vm_compute; reflexivity).
  assert (H2 : sh (fst (cexec counter_body counter_init ex_sched)) = 4) by (vm_compute; reflexivity).
  assert (H3 : net (calls (snd (cexec counter_body counter_init ex_sched))) = 2 ^ 64 + 4) by (vm_compute; reflexivity).
  destruct (cexec counter_body counter_init ex_sched) as [c tr]. auto.
Qed.

(** ** C02 *)
Theorem C02_counter_linearizable : forall sched,
  linearizable counter_apply counter_init (history (snd (cexec counter_body counter_init sched))).
Proof. exact counter_lin. Qed.
Print Assumptions C02_counter_linearizable.

Theorem C02_gauge_linearizable : forall sched,
  linearizable gauge_apply gauge_init (history (snd (cexec gauge_body gauge_init sched))).
Proof. exact gauge_lin. Qed.
Print Assumptions C02_gauge_linearizable.

Theorem C02_gaugefloat64_linearizable : forall sched,
  linearizable gaugef_apply f_zero (history (snd (cexec gaugef_body gaugef_init sched))).
Proof. exact gaugef_lin. Qed.
Print Assumptions C02_gaugefloat64_linearizable.

(* the history of the schedule above really has overlapping calls *)
Example C02_example : history (snd (cexec counter_body counter_init ex_sched)) =
  [HInv 1 (CInc max_int64); HInv 2 (CDec min_int64); HInv 3 CCount; HRes 1 RNone; HRes 2 RNone; HRes 3 (RInt (-1));
   HInv 1 (CInc 5); HRes 1 RNone].
Proof. vm_compute. reflexivity. Qed.

(** ** C03 (with C02_gaugefloat64_linearizable, whose object holds a float64,
    compared by Leibniz equality) *)
Theorem C03_bits_round_trip : forall v : f64, float64frombits (float64bits v) = v /\ 0 <= float64bits v < 2 ^ 64.
Proof. exact (fun v => conj (frombits_bits v) (bits_range v)). Qed.
Print Assumptions C03_bits_round_trip.

Theorem C03_bits_onto : forall b, 0 <= b < 2 ^ 64 -> float64bits (float64frombits b) = b.
Proof. exact bits_frombits. Qed.
Print Assumptions C03_bits_onto.

(** a sequence Update(v); Value(); Snapshot() of one goroutine returns v *)
Theorem C03_update_then_read : forall sched t v,
  th (fst (cexec gaugef_body gaugef_init sched)) t = Idle ->
  exists tr, snd (cexec gaugef_body gaugef_init
      (sched ++ [Call t (GFUpdate v); Run t; Run t; Call t GFValue; Run t; Run t; Call t GFSnapshot; Run t; Run t])) =
    tr ++ [EInv t GFValue; EStep t GFValue; ERes t (FRVal v); EInv t GFSnapshot; EStep t GFSnapshot; ERes t (FRSnap v)].
Proof. exact gaugef_update_read. Qed.
Print Assumptions C03_update_then_read.

(* a signalling NaN with a payload *)
Example C03_example : fis_nan (float64frombits 9218868437227405313) = true /\
  float64bits (float64frombits 9218868437227405313) = 9218868437227405313.
Proof. split; vm_compute; reflexivity. Qed.
