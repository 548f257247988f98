(** Properties C23-C26: the exponentially weighted moving average. *)
From Coq Require Import ZArith List Reals Lra Lia Permutation.
From Flocq Require Import Core.
From Verif.Model Require Import GoInt GoFloat Conc Ewma.
From Verif.Spec Require Import Traces EwmaSpec.
From Verif.Proofs Require Import IntFacts FloatFacts LinProofs PcProofs EwmaSeq EwmaConc.
Import ListNotations.
Open Scope Z_scope.

(** ** C23, single user.  [tick_counts h] are the events between ticks as the
    calls say, [pending h] those since the last tick. *)
Theorem C23_recurrence : forall alpha h, let w := ewma_run (NewEWMA alpha) h in
  w_uncounted w = wrap64 (pending h) /\
  (forall op, cseq (ewma_body op) w <> None) /\
  cseq (ewma_body WRate) w = Some (w, WVal (fmul (float_average alpha (map wrap64 (tick_counts h))) (f_of_int (10 ^ 9)))) /\
  cseq (ewma_body WSnapshot) w = Some (w, WSnap (fmul (float_average alpha (map wrap64 (tick_counts h))) (f_of_int (10 ^ 9)))).
Proof. exact ewma_history. Qed.
Print Assumptions C23_recurrence.

(** every event is in exactly one tick or still pending *)
Theorem C23_every_event_once : forall h, zsuml (tick_counts h) + pending h = total_events h.
Proof. exact ledger_total. Qed.
Print Assumptions C23_every_event_once.

(** in exact arithmetic: the exponentially weighted sum *)
Theorem C23_weighted_sum : forall alpha counts, ideal_average alpha counts = weighted alpha (rev counts).
Proof. exact ideal_weighted. Qed.
Print Assumptions C23_weighted_sum.

(** a constant flow of events is reported as is *)
Theorem C23_constant_flow : forall alpha c n, ideal_average alpha (repeat c (S n)) = (IZR c / 5000000000)%R.
Proof. exact ideal_const. Qed.
Print Assumptions C23_constant_flow.

(** and float64 stays that close to it: with at most B events per tick (B/5 per
    second) after k ticks Rate() is within (k+1)*2^-49 relative to B/5, and
    within 2/alpha*2^-49 however many ticks there were *)
Theorem C23_accuracy : forall alpha B h, unit_alpha alpha -> 1 <= B < 2 ^ 63 -> counts_upto B (tick_counts h) ->
  let e := Rabs (f2r (rate_now (ewma_run (NewEWMA alpha) h)) - 1000000000 * ideal_average (f2r alpha) (tick_counts h)) in
  (e <= (INR (length (tick_counts h)) + 1) * (bpow radix2 (-49) * (IZR B / 5)))%R /\
  (f2r alpha * e <= 2 * (bpow radix2 (-49) * (IZR B / 5)))%R.
Proof. exact rate_accuracy. Qed.
Print Assumptions C23_accuracy.

Definition half : f64 := fdiv (f_of_int 1) (f_of_int 2).
Lemma half_r : f2r half = (/ 2)%R /\ fis_finite half = true.
Proof.
  assert (E1 : f2r (f_of_int 1) = 1%R) by (apply f_of_int_exact; lia).
  assert (E2 : f2r (f_of_int 2) = 2%R) by (apply f_of_int_exact; lia).
  destruct (fdiv_correct (f_of_int 1) (f_of_int 2) (f_of_int_finite 1 ltac:(lia)) 0) as [E F]; [lia|lra| |].
  { rewrite E1, E2. change (bpow radix2 0) with 1%R. apply Rabs_le. lra. }
  split; [|exact F]. unfold half. rewrite E, E1, E2. replace (1 / 2)%R with (bpow radix2 (-1)) by (simpl; lra).
  rewrite rnd_id by (apply fmt_bpow; lia). reflexivity.
Qed.

(* 15 then 5 events: 3/s, then 3 + (1-3)/2 = 2/s; 7 pending *)
Definition ex_h : list ewma_op := [WUpdate 10; WUpdate 5; WTick; WUpdate 5; WRate; WTick; WUpdate 7].
Example C23_example :
  tick_counts ex_h = [15; 5] /\ pending ex_h = 7 /\ total_events ex_h = 27 /\
  rate_now (ewma_run (NewEWMA half) ex_h) = f_of_int 2 /\ unit_alpha half /\ counts_upto 15 (tick_counts ex_h).
Proof.
  split; [reflexivity|]. split; [reflexivity|]. split; [reflexivity|].
  split; [apply f64_eq_bits; vm_compute; reflexivity|].
  split; [|change (Forall (fun c => 0 <= c <= 15) [15; 5]); repeat (apply Forall_cons; [lia|]); apply Forall_nil]. destruct half_r as [E F]. split; [exact F|]. rewrite E. lra.
Qed.

(** ** C24 *)
Theorem C24_rate_bounds : forall alpha B h, unit_alpha alpha -> 0 <= B < 2 ^ 63 -> counts_upto B (tick_counts h) ->
  let v := rate_now (ewma_run (NewEWMA alpha) h) in
  fis_finite v = true /\ (0 <= f2r v)%R /\
  ((f2r alpha <= / 2)%R -> (f2r v <= f2r (fmul (fdiv (f_of_int B) (f_of_int (5 * 10 ^ 9))) (f_of_int (10 ^ 9))))%R).
Proof. exact rate_bounds. Qed.
Print Assumptions C24_rate_bounds.

(** an idle tick never raises the rate *)
Theorem C24_idle_tick : forall alpha B h, unit_alpha alpha -> 0 <= B < 2 ^ 63 -> counts_upto B (tick_counts h) -> pending h = 0 ->
  (f2r (rate_now (ewma_run (NewEWMA alpha) (h ++ [WTick]))) <= f2r (rate_now (ewma_run (NewEWMA alpha) h)))%R.
Proof. exact idle_tick. Qed.
Print Assumptions C24_idle_tick.

(** the built-in averages have 0 <= alpha <= 1/2, if math.Exp is finite, at
    most 1 and accurate to 2^-20 at the one argument used *)
Theorem C24_builtin_alphas : forall mexp m, 1 <= m <= 2 ^ 49 ->
  fis_finite (mexp (alpha_arg m)) = true -> (f2r (mexp (alpha_arg m)) <= 1)%R ->
  (Rabs (f2r (mexp (alpha_arg m)) - exp (f2r (alpha_arg m))) <= bpow radix2 (-20))%R ->
  unit_alpha (ewma_alpha mexp m) /\ (f2r (ewma_alpha mexp m) <= / 2)%R.
Proof. exact builtin_alpha. Qed.
Print Assumptions C24_builtin_alphas.

(** and the alpha of the m-minute average is 1 - e^(-5/(60 m)), up to the error of
    math.Exp at the one argument used and rounding *)
Theorem C23_builtin_alphas : forall mexp m eps, 1 <= m <= 2 ^ 49 ->
  fis_finite (mexp (alpha_arg m)) = true -> (0 <= f2r (mexp (alpha_arg m)) <= 1)%R ->
  (Rabs (f2r (mexp (alpha_arg m)) - exp (f2r (alpha_arg m))) <= eps)%R ->
  (Rabs (f2r (ewma_alpha mexp m) - (1 - exp (- (5 / (60 * IZR m))))) <= eps + bpow radix2 (-52))%R.
Proof. exact builtin_alpha_value. Qed.

(** the hypotheses about math.Exp hold for the 15-minute average if it returns 0.994459848 *)
Example C24_alpha_example : let mexp := fun _ : f64 => ex_exp in
  fis_finite (mexp (alpha_arg 15)) = true /\ (0 <= f2r (mexp (alpha_arg 15)) <= 1)%R /\
  (Rabs (f2r (mexp (alpha_arg 15)) - exp (f2r (alpha_arg 15))) <= bpow radix2 (-20))%R.
Proof. exact ex_exp_ok. Qed.

(** without the bound on the count of a tick the rate can be negative: two
    non-negative Updates overflow *)
Theorem C24_unbounded_counts_refuted :
  ~ (forall alpha h, unit_alpha alpha -> (forall n, In (WUpdate n) h -> 0 <= n < 2 ^ 63) ->
     (0 <= f2r (rate_now (ewma_run (NewEWMA alpha) h)))%R).
Proof.
  intro H. specialize (H half [WUpdate (2 ^ 62); WUpdate (2 ^ 62); WTick]).
  assert (U : unit_alpha half) by (destruct half_r as [E F]; split; [exact F|rewrite E; lra]).
  specialize (H U ltac:(intros n [E|[E|[E|[]]]]; try discriminate E; injection E as <-; split; vm_compute; congruence)).
  remember (rate_now (ewma_run (NewEWMA half) [WUpdate (2 ^ 62); WUpdate (2 ^ 62); WTick])) as v eqn:Ev.
  assert (L : flt v f_zero = true) by (rewrite Ev; vm_compute; reflexivity).
  assert (Fv : fis_finite v = true) by (rewrite Ev; vm_compute; reflexivity). clear Ev.
  rewrite flt_correct in L by (trivial; reflexivity). rewrite f2r_zero in L.
  destruct (Rlt_bool_spec (f2r v) 0) as [L'|L']; [lra|discriminate].
Qed.
Print Assumptions C24_unbounded_counts_refuted.

(** ** C25.  Any goroutines, any schedule: [fed] is what Updates have added,
    [takens] what ticks have subtracted. *)
Theorem C25_conservation : forall alpha sched,
  let '(c, tr) := cexec ewma_body (NewEWMA alpha) sched in
  wrap64 (fed (labels tr)) = wrap64 (zsuml (takens (labels tr)) + w_uncounted (sh c)).
Proof. exact conserved. Qed.
Print Assumptions C25_conservation.

(** one ticking goroutine: the k-th tick consumes exactly the events fed
    between the k-1st and k-th reading of the count; nothing is negative and
    nothing lost *)
Theorem C25_single_ticker : forall alpha t0 sched,
  let '(c, tr) := cexec ewma_body (NewEWMA alpha) sched in
  single_ticker t0 tr -> sane_feeds (labels tr) ->
  takens (labels tr) = firstn (length (takens (labels tr))) (fst (between (labels tr))) /\
  (length (fst (between (labels tr))) <= S (length (takens (labels tr))))%nat /\
  Forall (fun n => 0 <= n) (takens (labels tr)) /\ 0 <= w_uncounted (sh c) /\
  zsuml (takens (labels tr)) + w_uncounted (sh c) = fed (labels tr).
Proof. exact single_exact. Qed.
Print Assumptions C25_single_ticker.

(** and between calls the rate is the documented recurrence of these counts *)
Theorem C25_single_ticker_rate : forall alpha t0 sched,
  let '(c, tr) := cexec ewma_body (NewEWMA alpha) sched in
  single_ticker t0 tr -> sane_feeds (labels tr) -> th c t0 = Idle ->
  takens (labels tr) = fst (between (labels tr)) /\ w_uncounted (sh c) = snd (between (labels tr)) /\
  w_rate (sh c) = float64bits (float_average alpha (takens (labels tr))).
Proof. exact single_idle. Qed.
Print Assumptions C25_single_ticker_rate.

(* an Update falls between the tick's load and its subtraction *)
Definition ex25 : list (choice ewma_op) :=
  [Call 2 (WUpdate 5); Run 2; Run 2; Call 1 WTick; Run 1; Run 1; Run 1; Run 1; Run 1;
   Call 2 (WUpdate 7); Run 2; Run 1; Run 1; Run 1; Run 2; Run 1].
Example C25_example : let '(c, tr) := cexec ewma_body (NewEWMA half) ex25 in
  single_ticker 1 tr /\ sane_feeds (labels tr) /\ th c 1 = Idle /\
  takens (labels tr) = [5] /\ w_uncounted (sh c) = 7 /\ fed (labels tr) = 12.
Proof.
  assert (Hs : single_ticker 1 (snd (cexec ewma_body (NewEWMA half) ex25))).
  { apply single_check. vm_compute. reflexivity. }
  assert (Hf : sane_feeds (labels (snd (cexec ewma_body (NewEWMA half) ex25)))).
  { apply sane_check. vm_compute. reflexivity. }
  pose proof (quiet_check ewma_body (NewEWMA half) ex25 ltac:(vm_compute; reflexivity)) as Q.
  assert (H1 : takens (labels (snd (cexec ewma_body (NewEWMA half) ex25))) = [5]) by (vm_compute; reflexivity).
  assert (H2 : w_uncounted (sh (fst (cexec ewma_body (NewEWMA half) ex25))) = 7) by (vm_compute; reflexivity).
  assert (H3 : fed (labels (snd (cexec ewma_body (NewEWMA half) ex25))) = 12) by (vm_compute; reflexivity).
  destruct (cexec ewma_body (NewEWMA half) ex25) as [c tr]. split; [exact Hs|]. split; [exact Hf|]. split; [apply Q|auto].
Qed.

(** two concurrent Ticks can consume the same events: 5 events fed, 10
    consumed, and -5 left over with no call in progress *)
Definition two_ticks : list (choice ewma_op) :=
  [Call 1 WTick; Run 1; Run 1; Run 1; Run 1; Run 1; Run 1; Run 1; Run 1; Run 1;
   Call 3 (WUpdate 5); Run 3; Run 3; Call 1 WTick; Call 2 WTick; Run 1; Run 1; Run 2; Run 2;
   Run 1; Run 1; Run 1; Run 1; Run 2; Run 2; Run 2; Run 2].
Theorem C25_two_tickers_refuted :
  ~ (forall alpha sched, let '(c, tr) := cexec ewma_body (NewEWMA alpha) sched in
     quiet c -> sane_feeds (labels tr) -> 0 <= w_uncounted (sh c) /\ zsuml (takens (labels tr)) <= fed (labels tr)).
Proof.
  intro H. specialize (H half two_ticks).
  pose proof (quiet_check ewma_body (NewEWMA half) two_ticks ltac:(vm_compute; reflexivity)) as Q.
  assert (Hf : sane_feeds (labels (snd (cexec ewma_body (NewEWMA half) two_ticks)))).
  { apply sane_check. vm_compute. reflexivity. }
  assert (H2 : w_uncounted (sh (fst (cexec ewma_body (NewEWMA half) two_ticks))) = -5) by (vm_compute; reflexivity).
  destruct (cexec ewma_body (NewEWMA half) two_ticks) as [c tr]. destruct (H Q Hf) as [H0 _]. cbn [fst] in H2. rewrite H2 in H0. lia.
Qed.
Print Assumptions C25_two_tickers_refuted.

(** ** C26 *)
Theorem C26_initialised_once : forall alpha sched,
  let '(c, tr) := cexec ewma_body (NewEWMA alpha) sched in
  nlabels is_init (labels tr) = (if w_init (sh c) then 1 else 0)%nat /\
  (nlabels is_rate_init (labels tr) <= 1)%nat /\
  (quiet c -> nlabels is_rate_init (labels tr) = if existsb is_tick (calls tr) then 1%nat else 0%nat).
Proof. exact init_once. Qed.
Print Assumptions C26_initialised_once.

(** each completed Tick stores the rate exactly once *)
Theorem C26_one_store_per_tick : forall alpha sched,
  let '(c, tr) := cexec ewma_body (NewEWMA alpha) sched in
  forall t, th c t = Idle -> length (filter is_tick (calls_of t tr)) = nlabels is_rate_store (labels_of t tr).
Proof. exact store_per_tick. Qed.
Print Assumptions C26_one_store_per_tick.

(** what is stored: an instantaneous rate by the initialising tick, one step of
    the recurrence by every other *)
Theorem C26_stored_rates : forall alpha sched, stores_ok alpha (labels (snd (cexec ewma_body (NewEWMA alpha) sched))).
Proof. exact stored_rates. Qed.
Print Assumptions C26_stored_rates.

(** the mutex admits one goroutine, and no call can be stuck *)
Theorem C26_mutual_exclusion : forall alpha sched t u,
  let tr := snd (cexec ewma_body (NewEWMA alpha) sched) in
  in_section (labels_of t tr) = true -> in_section (labels_of u tr) = true -> t = u.
Proof. exact mutual_exclusion. Qed.
Print Assumptions C26_mutual_exclusion.

Theorem C26_no_deadlock : forall alpha sched t, let c := fst (cexec ewma_body (NewEWMA alpha) sched) in
  th c t <> Idle -> exists u, can_run c u.
Proof. exact ewma_progress. Qed.
Print Assumptions C26_no_deadlock.

(* two first Ticks racing past the first check: the second one applies the
   recurrence after waiting for the mutex *)
Definition ex26 : list (choice ewma_op) :=
  [Call 3 (WUpdate 5); Run 3; Run 3; Call 1 WTick; Call 2 WTick; Run 1; Run 2; Run 2; Run 1; Run 2; Run 2; Run 2; Run 2; Run 2; Run 1; Run 2; Run 2; Run 1; Run 1;
   Run 1; Run 1; Run 1; Run 1; Run 1; Run 1].
Example C26_example : let '(c, tr) := cexec ewma_body (NewEWMA half) ex26 in
  quiet c /\ nlabels is_rate_init (labels tr) = 1%nat /\ nlabels is_rate_store (labels tr) = 2%nat /\
  calls tr = [WUpdate 5; WTick; WTick] /\ rate_now (sh c) = half.
Proof.
  pose proof (quiet_check ewma_body (NewEWMA half) ex26 ltac:(vm_compute; reflexivity)) as Q.
  assert (H1 : nlabels is_rate_init (labels (snd (cexec ewma_body (NewEWMA half) ex26))) = 1%nat) by (vm_compute; reflexivity).
  assert (H2 : nlabels is_rate_store (labels (snd (cexec ewma_body (NewEWMA half) ex26))) = 2%nat) by (vm_compute; reflexivity).
  assert (H3 : calls (snd (cexec ewma_body (NewEWMA half) ex26)) = [WUpdate 5; WTick; WTick]) by (vm_compute; reflexivity).
  assert (H4 : rate_now (sh (fst (cexec ewma_body (NewEWMA half) ex26))) = half) by (apply f64_eq_bits; vm_compute; reflexivity).
  destruct (cexec ewma_body (NewEWMA half) ex26) as [c tr]. auto.
Qed.

(** But the initialising Tick sets init before it stores the rate.  A second
    Tick can update the rate in between and be overwritten: its events are in
    no rate.  So the final rate need not be the recurrence of the consumed
    counts in any order. *)
Definition lost_update : list (choice ewma_op) :=
  [Call 3 (WUpdate 10); Run 3; Run 3; Call 1 WTick; Run 1; Run 1; Run 1; Run 1;
   Call 2 WTick; Run 2; Run 2; Run 2; Run 2; Run 2; Run 2; Run 1; Run 1; Run 1; Run 1; Run 1].
Theorem C26_rate_is_some_order_refuted :
  ~ (forall alpha sched, let '(c, tr) := cexec ewma_body (NewEWMA alpha) sched in
     quiet c -> exists order, Permutation order (takens (labels tr)) /\ w_rate (sh c) = float64bits (float_average alpha order)).
Proof.
  intro H. specialize (H half lost_update).
  pose proof (quiet_check ewma_body (NewEWMA half) lost_update ltac:(vm_compute; reflexivity)) as Q.
  assert (H1 : takens (labels (snd (cexec ewma_body (NewEWMA half) lost_update))) = [10; 0]) by (vm_compute; reflexivity).
  assert (H2 : w_rate (sh (fst (cexec ewma_body (NewEWMA half) lost_update))) = 0) by (vm_compute; reflexivity).
  destruct (cexec ewma_body (NewEWMA half) lost_update) as [c tr]. cbn [fst snd] in H1, H2.
  destruct (H Q) as (order & P & E). rewrite H1 in P. rewrite H2 in E. symmetry in P. apply Permutation_length_2_inv in P.
  destruct P as [->| ->]; vm_compute in E; discriminate.
Qed.
Print Assumptions C26_rate_is_some_order_refuted.
