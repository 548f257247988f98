(** Properties C27-C30: meters and the arbiter that ticks them.

    [meter_body] is the code of every method as atomic actions; [cexec] runs
    any schedule of any goroutines from the state before the first NewMeter.
    [labels tr] are the observed actions, [done_calls t tr] goroutine t's
    completed calls with what each did.  [mexp] is math.Exp. *)
From Coq Require Import ZArith List Lia Arith Permutation.
From Verif.Model Require Import GoInt GoFloat Conc Ewma Meter.
From Verif.Spec Require Import Traces EwmaSpec MeterSpec.
From Verif.Proofs Require Import IntFacts LinProofs PcProofs EwmaConc LogFacts MeterFinal.
Import ListNotations.
Open Scope Z_scope.

Notation mrun mexp sched := (cexec (meter_body mexp) arb_init sched).

(** ** C27 *)
(** the count is the sum of the amounts marked so far *)
Theorem C27_count : forall mexp sched id, let '(c, tr) := mrun mexp sched in
  m_count (meter_at (sh c) id) = wrap64 (sumz (marked id (labels tr))).
Proof. exact count_sum. Qed.
Print Assumptions C27_count.

(** a completed Count, Rate or Snapshot returns values that were the right ones
    at some moment during the call: for the count, the sum marked by then *)
Theorem C27_reads : forall mexp sched pre post t r op ls, snd (mrun mexp sched) = pre ++ ERes t r :: post ->
  open_call t pre = Some (op, ls) -> read_ok t op pre r.
Proof. exact reads_ok. Qed.
Print Assumptions C27_reads.

(** what every completed call did: a Mark was skipped, or added its amount
    once, gave it once to each average and published; and so on *)
Theorem C27_completed_calls : forall mexp sched t c, In c (done_calls t (snd (mrun mexp sched))) ->
  call_done (c_op c) (acts (c_labels c)) (c_ret c).
Proof. exact calls_ok. Qed.
Print Assumptions C27_completed_calls.

(** every average is given exactly the marked amounts *)
Theorem C27_averages_fed : forall mexp sched id w, let '(c, tr) := mrun mexp sched in
  quiet c -> Permutation (marked id (labels tr)) (feds id w (labels tr)).
Proof. exact fed_to_all. Qed.
Print Assumptions C27_averages_fed.

(** a Mark is skipped only after some Stop took effect *)
Theorem C27_skipped_only_after_stop : forall mexp sched pre id n post,
  labels (snd (mrun mexp sched)) = pre ++ LSkipped id n :: post -> wins id pre = 1%nat.
Proof. exact skip_after_stop. Qed.
Print Assumptions C27_skipped_only_after_stop.

(** so a Mark that completed before any Stop began took effect *)
Theorem C27_before_stop : forall mexp sched id n t c, let tr := snd (mrun mexp sched) in
  (forall u, ~ In (EInv u (MStop id)) tr) ->
  In c (done_calls t tr) -> c_op c = MMark id n -> acts (c_labels c) = mark_acts id n.
Proof. exact marks_before_stop. Qed.
Print Assumptions C27_before_stop.

(** a Mark that began after any Stop returned has no effect *)
Theorem C27_after_stop : forall mexp sched pre post t id n c, snd (mrun mexp sched) = pre ++ post ->
  returned (MStop id) pre -> open_call t pre = None ->
  In c (done_calls t post) -> c_op c = MMark id n -> c_labels c = [LSkipped id n].
Proof. exact marks_after_stop. Qed.
Print Assumptions C27_after_stop.

Definition ex_exp (_ : f64) : f64 := fdiv (f_of_int 1) (f_of_int 2).
(* two Marks and a Stop race; the first Mark is past its check *)
Definition ex27 : list (choice meter_op) :=
  Call 1 MNew :: repeat (Run 1) 5 ++ [Call 1 (MMark 0 5); Run 1; Call 2 (MStop 0)] ++ repeat (Run 2) 5 ++
  [Call 3 (MMark 0 7); Run 3; Run 3] ++ repeat (Run 1) 14 ++ [Call 1 (MCount 0); Run 1; Run 1].
Definition ret_of (x : call_rec mlabel meter_op meter_ret) : option Z := match c_ret x with MInt n => Some n | _ => None end.
Example C27_example : let '(c, tr) := mrun ex_exp ex27 in
  quiet c /\ marked 0 (labels tr) = [5] /\ In (LSkipped 0 7) (labels tr) /\ feds 0 A5 (labels tr) = [5] /\
  map ret_of (done_calls 1 tr) = [None; None; Some 5] /\ returned (MStop 0) tr.
Proof.
  pose proof (quiet_check (meter_body ex_exp) arb_init ex27 ltac:(vm_compute; reflexivity)) as Q.
  assert (H1 : marked 0 (labels (snd (mrun ex_exp ex27))) = [5]) by (vm_compute; reflexivity).
  assert (H2 : existsb (fun l => match l with LSkipped O 7 => true | _ => false end) (labels (snd (mrun ex_exp ex27))) = true) by (vm_compute; reflexivity).
  assert (H3 : feds 0 A5 (labels (snd (mrun ex_exp ex27))) = [5]) by (vm_compute; reflexivity).
  assert (H4 : map ret_of (done_calls 1 (snd (mrun ex_exp ex27))) = [None; None; Some 5]) by (vm_compute; reflexivity).
  assert (H5 : map c_op (done_calls 2 (snd (mrun ex_exp ex27))) = [MStop 0]) by (vm_compute; reflexivity).
  destruct (mrun ex_exp ex27) as [c tr]. cbn [fst snd] in *. repeat split; auto.
  - apply existsb_exists in H2. destruct H2 as (l & Hl & E). destruct l as [| [|] z | | | | | | | | | | | ]; try discriminate E.
    destruct z as [|p|]; try discriminate E. do 3 (destruct p as [p|p|]; try discriminate E). exact Hl.
  - exists 2%nat. destruct (done_calls 2 tr) as [|x l]; [discriminate|]. injection H5 as H5 _. exists x. split; [now left|exact H5].
Qed.

(** but a Mark that merely began before any Stop began need not take effect *)
Definition late_new : list (choice meter_op) := Call 1 MNew :: repeat (Run 1) 5.
Definition late_rest : list (choice meter_op) := Call 2 (MStop 0) :: repeat (Run 2) 5 ++ [Run 1; Run 1].
Theorem C27_began_before_stop_refuted :
  ~ (forall mexp s1 s2 t id n, quiet (fst (mrun mexp s1)) -> (forall u, ~ In (EInv u (MStop id)) (snd (mrun mexp s1))) ->
     let '(c, tr) := mrun mexp (s1 ++ Call t (MMark id n) :: s2) in quiet c -> In n (marked id (labels tr))).
Proof.
  intro H. specialize (H ex_exp late_new late_rest 1%nat 0%nat 5).
  pose proof (quiet_check (meter_body ex_exp) arb_init late_new ltac:(vm_compute; reflexivity)) as Q1.
  pose proof (quiet_check (meter_body ex_exp) arb_init (late_new ++ Call 1 (MMark 0 5) :: late_rest) ltac:(vm_compute; reflexivity)) as Q.
  assert (H1 : marked 0 (labels (snd (mrun ex_exp (late_new ++ Call 1 (MMark 0 5) :: late_rest)))) = []) by (vm_compute; reflexivity).
  assert (H2 : existsb (fun e => match e with EInv _ (MStop _) => true | _ => false end) (snd (mrun ex_exp late_new)) = false) by (vm_compute; reflexivity).
  specialize (H Q1). destruct (mrun ex_exp (late_new ++ _)) as [c tr]. cbn [fst snd] in *. rewrite H1 in H. apply H; [|exact Q].
  intros u Hu. rewrite <- Bool.not_true_iff_false in H2. apply H2. apply existsb_exists. eexists. split; [exact Hu|reflexivity].
Qed.
Print Assumptions C27_began_before_stop_refuted.

(** ** C28 *)
(** exactly one Stop removes the meter, however many are called *)
Theorem C28_one_removal : forall mexp sched id, let '(c, tr) := mrun mexp sched in
  (wins id (labels tr) <= 1)%nat /\ (removals id (labels tr) <= wins id (labels tr))%nat /\
  (returned (MStop id) tr -> wins id (labels tr) = 1%nat) /\
  (quiet c -> returned (MStop id) tr -> removals id (labels tr) = 1%nat).
Proof. exact stop_once. Qed.
Print Assumptions C28_one_removal.

(** after the removal nothing of a tick of that meter happens, ever *)
Theorem C28_no_tick_after_removal : forall mexp sched pre l post id,
  labels (snd (mrun mexp sched)) = pre ++ l :: post -> In (LDeleted id) pre -> ~ tick_action id l.
Proof. exact no_tick_after. Qed.
Print Assumptions C28_no_tick_after_removal.

(** and no round of ticks is in progress at that moment; other meters stay *)
Theorem C28_removal_between_rounds : forall mexp sched pre id post,
  labels (snd (mrun mexp sched)) = pre ++ LDeleted id :: post ->
  rounds_begun pre = rounds_ended pre /\
  (forall j, In j (members (pre ++ [LDeleted id])) <-> In j (members pre) /\ j <> id).
Proof.
  intros mexp sched pre id post E. split; [exact (rounds_right mexp sched pre (LDeleted id) post E)|].
  intro j. unfold members, inserted, deleted. rewrite !flat_map_app. cbn [flat_map app]. rewrite app_nil_r, !filter_In.
  fold (deleted pre). destruct (in_dec Nat.eq_dec j (deleted pre ++ [id])) as [I|I]; destruct (in_dec Nat.eq_dec j (deleted pre)) as [I'|I'];
    rewrite in_app_iff in I; cbn in I; intuition congruence.
Qed.
Print Assumptions C28_removal_between_rounds.

(** a completed Stop either removed the meter or lost to another *)
Theorem C28_stop_outline : forall mexp sched t c id, In c (done_calls t (snd (mrun mexp sched))) -> c_op c = MStop id ->
  acts (c_labels c) = [ACas id false] \/ acts (c_labels c) = [ACas id true; ADel id].
Proof.
  intros mexp sched t c id H E. pose proof (calls_ok mexp sched t c H) as D. rewrite E in D. apply D.
Qed.
Print Assumptions C28_stop_outline.

(** no deadlock: while a call that can be made is unfinished, something runs *)
Theorem C28_no_deadlock : forall mexp sched t, let '(c, tr) := mrun mexp sched in valid_call t tr -> exists u, can_run c u.
Proof. exact meter_progress. Qed.
Print Assumptions C28_no_deadlock.

(* a Stop during a round waits for its end *)
Definition ex28 : list (choice meter_op) :=
  Call 1 MNew :: repeat (Run 1) 5 ++ [Call 2 (MTickAll [])] ++ repeat (Run 2) 20 ++ [Call 1 (MStop 0); Run 1; Run 1; Call 3 (MStop 0); Run 3; Run 3] ++
  repeat (Run 2) 30 ++ repeat (Run 1) 5 ++ Call 2 (MTickAll []) :: repeat (Run 2) 5.
Example C28_example : let '(c, tr) := mrun ex_exp ex28 in
  quiet c /\ wins 0 (labels tr) = 1%nat /\ removals 0 (labels tr) = 1%nat /\ ticks_ended 0 (labels tr) = 1%nat /\
  rounds_ended (labels tr) = 2%nat /\ returned (MStop 0) tr.
Proof.
  pose proof (quiet_check (meter_body ex_exp) arb_init ex28 ltac:(vm_compute; reflexivity)) as Q.
  assert (H1 : wins 0 (labels (snd (mrun ex_exp ex28))) = 1%nat) by (vm_compute; reflexivity).
  assert (H2 : removals 0 (labels (snd (mrun ex_exp ex28))) = 1%nat) by (vm_compute; reflexivity).
  assert (H3 : ticks_ended 0 (labels (snd (mrun ex_exp ex28))) = 1%nat) by (vm_compute; reflexivity).
  assert (H4 : rounds_ended (labels (snd (mrun ex_exp ex28))) = 2%nat) by (vm_compute; reflexivity).
  assert (H5 : map c_op (done_calls 3 (snd (mrun ex_exp ex28))) = [MStop 0]) by (vm_compute; reflexivity).
  destruct (mrun ex_exp ex28) as [c tr]. cbn [fst snd] in *. repeat split; auto.
  exists 3%nat. destruct (done_calls 3 tr) as [|x l]; [discriminate|]. injection H5 as H5 _. exists x. split; [now left|exact H5].
Qed.

(** but the Stop that lost may return while ticks of the meter still happen *)
Definition early_stop : list (choice meter_op) :=
  Call 1 MNew :: repeat (Run 1) 5 ++ [Call 1 (MStop 0); Run 1; Call 3 (MStop 0); Run 3; Run 3].
Definition early_tick : list (choice meter_op) := Call 2 (MTickAll []) :: repeat (Run 2) 40.
Theorem C28_every_stop_refuted :
  ~ (forall mexp s1 s2 id, returned (MStop id) (snd (mrun mexp s1)) ->
     ticks_begun id (labels (snd (mrun mexp (s1 ++ s2)))) = ticks_begun id (labels (snd (mrun mexp s1)))).
Proof.
  intro H. specialize (H ex_exp early_stop early_tick 0%nat).
  assert (H5 : map c_op (done_calls 3 (snd (mrun ex_exp early_stop))) = [MStop 0]) by (vm_compute; reflexivity).
  assert (R : returned (MStop 0) (snd (mrun ex_exp early_stop))).
  { exists 3%nat. destruct (done_calls 3 (snd (mrun ex_exp early_stop))) as [|x l]; [discriminate|]. injection H5 as H5 _. exists x. split; [now left|exact H5]. }
  specialize (H R). vm_compute in H. discriminate H.
Qed.
Print Assumptions C28_every_stop_refuted.

(** ** C29 *)
(** a firing of the ticker finds exactly the meters made and not yet stopped *)
Theorem C29_round_set : forall mexp sched pre ids post,
  labels (snd (mrun mexp sched)) = pre ++ LRound ids :: post -> ids = members pre.
Proof. intros mexp sched pre ids post E. exact (rounds_right mexp sched pre (LRound ids) post E). Qed.
Print Assumptions C29_round_set.

(** and ticks each of them exactly once, in some order *)
Theorem C29_round_ticks : forall mexp sched t c order, In c (done_calls t (snd (mrun mexp sched))) -> c_op c = MTickAll order ->
  exists ids seq, Permutation seq ids /\ NoDup ids /\ acts (c_labels c) = ARound ids :: flat_map tick_acts seq ++ [ARoundEnd].
Proof.
  intros mexp sched t c order H E. pose proof (calls_ok mexp sched t c H) as D. rewrite E in D. apply D.
Qed.
Print Assumptions C29_round_ticks.

(** meters enter the set only between rounds, each once *)
Theorem C29_insert_between_rounds : forall mexp sched pre id post,
  labels (snd (mrun mexp sched)) = pre ++ LInserted id :: post -> rounds_begun pre = rounds_ended pre /\ ~ In id (inserted pre).
Proof.
  intros mexp sched pre id post E. split; [exact (rounds_right mexp sched pre (LInserted id) post E)|].
  destruct (ticker_once mexp sched) as [D _]. rewrite E in D. unfold inserted in D. rewrite flat_map_app in D. cbn [flat_map app] in D.
  apply NoDup_remove_2 in D. rewrite in_app_iff in D. fold (inserted pre) in D. tauto.
Qed.
Print Assumptions C29_insert_between_rounds.

(** the ticker goroutine is started once, with the first meter *)
Theorem C29_one_ticker : forall mexp sched, let ls := labels (snd (mrun mexp sched)) in
  NoDup (inserted ls) /\ spawns ls = match inserted ls with [] => 0%nat | _ => 1%nat end.
Proof. exact ticker_once. Qed.
Print Assumptions C29_one_ticker.

(* three meters, one stopped; the map is visited in another order *)
Definition ex29 : list (choice meter_op) :=
  Call 1 MNew :: repeat (Run 1) 5 ++ Call 1 MNew :: repeat (Run 1) 5 ++ Call 1 MNew :: repeat (Run 1) 5 ++
  Call 1 (MStop 1) :: repeat (Run 1) 5 ++ Call 2 (MTickAll [2; 1; 0]%nat) :: repeat (Run 2) 80.
Example C29_example : let '(c, tr) := mrun ex_exp ex29 in
  quiet c /\ spawns (labels tr) = 1%nat /\ members (labels tr) = [0; 2]%nat /\
  map (fun x => acts (c_labels x)) (done_calls 2 tr) = [ARound [0; 2]%nat :: tick_acts 2 ++ tick_acts 0 ++ [ARoundEnd]].
Proof.
  pose proof (quiet_check (meter_body ex_exp) arb_init ex29 ltac:(vm_compute; reflexivity)) as Q.
  assert (H1 : spawns (labels (snd (mrun ex_exp ex29))) = 1%nat) by (vm_compute; reflexivity).
  assert (H2 : members (labels (snd (mrun ex_exp ex29))) = [0; 2]%nat) by (vm_compute; reflexivity).
  assert (H3 : map (fun x => acts (c_labels x)) (done_calls 2 (snd (mrun ex_exp ex29))) = [ARound [0; 2]%nat :: tick_acts 2 ++ tick_acts 0 ++ [ARoundEnd]]) by (vm_compute; reflexivity).
  destruct (mrun ex_exp ex29) as [c tr]. auto.
Qed.

(** ** C30 *)
(** a rate that is published was the average's rate at some moment before; a
    mean rate is a count the meter had, divided by an elapsed time *)
Theorem C30_published_rates_existed : forall mexp sched pre post, labels (snd (mrun mexp sched)) = pre ++ post ->
  match post with
  | LPub id w b :: _ => exists v, was_rate id w pre v /\ b = float64bits v
  | LMean id b :: _ => exists p1 p2 d, pre = p1 ++ p2 /\ 0 <= d <= max_int64 /\
      b = float64bits (fdiv (f_of_int (count_at id p1)) (seconds d))
  | _ => True end.
Proof. exact published_existed. Qed.
Print Assumptions C30_published_rates_existed.

(** and RateN, RateMean and Snapshot return what was last published *)
Theorem C30_reported_rates : forall mexp sched pre post t r id w ls, snd (mrun mexp sched) = pre ++ ERes t r :: post ->
  (open_call t pre = Some (MRate id w, ls) -> exists b, r = MFloat (float64frombits b) /\ seen t (MRate id w) pre (pub_at id w) b) /\
  (open_call t pre = Some (MRateMean id, ls) -> exists b, r = MFloat (float64frombits b) /\ seen t (MRateMean id) pre (mean_at id) b).
Proof.
  intros mexp sched pre post t r id w ls E. split; intro O.
  - exact (reads_ok mexp sched pre post t r (MRate id w) ls E O).
  - exact (reads_ok mexp sched pre post t r (MRateMean id) ls E O).
Qed.
Print Assumptions C30_reported_rates.

(** if ticks of the meter never overlap a Mark of it (or each other), the
    published rates are the current ones whenever it is not being ticked *)
Theorem C30_fresh_without_overlap : forall mexp sched id w, let '(c, tr) := mrun mexp sched in
  apart id tr -> ticks_begun id (labels tr) = ticks_ended id (labels tr) ->
  get_pub w (meter_at (sh c) id) = float64bits (rate_of (w_rate (ewma_get id w (sh c)))).
Proof. exact fresh_apart. Qed.
Print Assumptions C30_fresh_without_overlap.

(** the average itself, with one ticking goroutine: tick k consumes exactly the
    amounts given to the average between two readings, and the rate is the
    documented recurrence of these (see C23) *)
Theorem C30_average_is_recurrence : forall mexp sched id w t0, let '(c, tr) := mrun mexp sched in let ls := ewma_labels id w (labels tr) in
  (id < length (ms (sh c)))%nat -> (forall t o, In (EInv t (MTickAll o)) tr -> t = t0) -> sane_feeds ls -> th c t0 = Idle ->
  takens ls = fst (between ls) /\ w_uncounted (ewma_get id w (sh c)) = snd (between ls) /\
  w_rate (ewma_get id w (sh c)) = float64bits (float_average (ewma_alpha mexp (minutes w)) (takens ls)).
Proof. exact meter_recurrence. Qed.
Print Assumptions C30_average_is_recurrence.

(** in general each of a meter's averages goes through an execution of the
    EWMA code, so C25 and C26 apply to it *)
Theorem C30_average_is_ewma : forall mexp sched id w, let '(c, tr) := mrun mexp sched in (id < length (ms (sh c)))%nat -> exists esched,
  let '(ec, etr) := cexec ewma_body (NewEWMA (ewma_alpha mexp (minutes w))) esched in
  sh ec = ewma_get id w (sh c) /\ labels etr = ewma_labels id w (labels tr) /\ (forall t, labels_of t etr = ewma_labels id w (labels_of t tr)) /\
  (forall t, In (EInv t WTick) etr -> exists o, In (EInv t (MTickAll o)) tr) /\ (forall t, th c t = Idle -> th ec t = Idle).
Proof. exact meter_average. Qed.
Print Assumptions C30_average_is_ewma.

(* Mark 10, tick, read: 2 per second, published and current *)
Definition apart_b (id : nat) (tr : list (event mlabel meter_op meter_ret)) : bool :=
  forallb (fun k => let pre := firstn k tr in
    (Nat.leb (ticks_begun id (labels pre)) (S (ticks_ended id (labels pre))) &&
     (Nat.eqb (ticks_begun id (labels pre)) (ticks_ended id (labels pre)) ||
      forallb (fun t => match open_call t pre with Some (MMark i _, _) => negb (Nat.eqb i id) | _ => true end) (map who tr)))%bool) (seq 0 (S (length tr))).
Lemma open_who {L Op R} t (tr : list (event L Op R)) x : open_call t tr = Some x -> In t (map who tr).
Proof.
  revert x. induction tr as [|e tr IH] using rev_ind; [discriminate|]. intro x. rewrite map_app, in_app_iff. cbn [map In]. destruct e as [u o|u l|u r].
  - rewrite open_inv. destruct (Nat.eqb_spec u t) as [->|]; [auto|left; eauto].
  - change [EStep u l] with (map (@EStep L Op R u) [l]). rewrite open_steps. destruct (Nat.eqb_spec u t) as [->|]; [auto|left; eauto].
  - rewrite open_res. destruct (Nat.eqb_spec u t) as [->|]; [discriminate|left; eauto].
Qed.
Lemma apart_check id tr : apart_b id tr = true -> apart id tr.
Proof.
  intros H pre post ->. unfold apart_b in H. rewrite forallb_forall in H. specialize (H (length pre)).
  rewrite firstn_app, firstn_all, Nat.sub_diag, app_nil_r in H. assert (I : In (length pre) (seq 0 (S (length (pre ++ post))))) by (apply in_seq; rewrite app_length; lia).
  apply H in I. apply andb_prop in I. destruct I as [I1 I2]. apply Nat.leb_le in I1. split; [exact I1|]. intros N t n ls O.
  apply Bool.orb_true_iff in I2. destruct I2 as [I2|I2]; [apply Nat.eqb_eq in I2; contradiction|]. rewrite forallb_forall in I2.
  specialize (I2 t). rewrite O in I2. rewrite Nat.eqb_refl in I2. assert (G : In t (map who (pre ++ post))) by (rewrite map_app; apply in_or_app; left; eapply open_who; exact O).
  apply I2 in G. discriminate.
Qed.
Definition ex30 : list (choice meter_op) :=
  Call 1 MNew :: repeat (Run 1) 5 ++ Call 1 (MMark 0 10) :: repeat (Run 1) 16 ++ Call 2 (MTickAll []) :: repeat (Run 2) 40.
Example C30_example : let '(c, tr) := mrun ex_exp ex30 in
  apart 0 tr /\ ticks_begun 0 (labels tr) = ticks_ended 0 (labels tr) /\ ticks_begun 0 (labels tr) = 1%nat /\
  get_pub A1 (meter_at (sh c) 0) = float64bits (f_of_int 2).
Proof.
  assert (H1 : apart 0 (snd (mrun ex_exp ex30))) by (apply apart_check; vm_compute; reflexivity).
  assert (H2 : ticks_begun 0 (labels (snd (mrun ex_exp ex30))) = 1%nat) by (vm_compute; reflexivity).
  assert (H3 : ticks_ended 0 (labels (snd (mrun ex_exp ex30))) = 1%nat) by (vm_compute; reflexivity).
  assert (H4 : get_pub A1 (meter_at (sh (fst (mrun ex_exp ex30))) 0) = float64bits (f_of_int 2)) by (vm_compute; reflexivity).
  destruct (mrun ex_exp ex30) as [c tr]. cbn [fst snd] in *. split; [exact H1|]. split; [congruence|]. auto.
Qed.

(** but a Mark that overlaps a tick can overwrite the fresh rate with the one
    it read before, and leave it published with no call in progress *)
Definition stale : list (choice meter_op) :=
  Call 1 MNew :: repeat (Run 1) 5 ++ Call 1 (MMark 0 10) :: repeat (Run 1) 10 ++ Call 2 (MTickAll []) :: repeat (Run 2) 40 ++ repeat (Run 1) 6.
Theorem C30_fresh_when_quiet_refuted :
  ~ (forall mexp sched id w, let '(c, tr) := mrun mexp sched in quiet c ->
     get_pub w (meter_at (sh c) id) = float64bits (rate_of (w_rate (ewma_get id w (sh c))))).
Proof.
  intro H. specialize (H ex_exp stale 0%nat A1).
  pose proof (quiet_check (meter_body ex_exp) arb_init stale ltac:(vm_compute; reflexivity)) as Q.
  assert (H1 : get_pub A1 (meter_at (sh (fst (mrun ex_exp stale))) 0) = 0) by (vm_compute; reflexivity).
  assert (H2 : float64bits (rate_of (w_rate (ewma_get 0 A1 (sh (fst (mrun ex_exp stale)))))) = float64bits (f_of_int 2)) by (vm_compute; reflexivity).
  destruct (mrun ex_exp stale) as [c tr]. cbn [fst snd] in *. specialize (H Q). rewrite H1, H2 in H. vm_compute in H. discriminate H.
Qed.
Print Assumptions C30_fresh_when_quiet_refuted.

(** ** C30: Snapshot *)
(** an action on what Snapshot reads *)
Definition touches (id : nat) (l : mlabel) : bool :=
  match l with LMarked i _ | LPub i _ _ | LMean i _ => Nat.eqb i id | _ => false end.
(** the numbers of a snapshot are those the meter showed at one moment *)
Definition of_one_moment (id : nat) (pre : list (event mlabel meter_op meter_ret)) (c r1 r5 r15 m : Z) : Prop :=
  exists before after, pre = before ++ after /\ let ls := labels before in
    c = count_at id ls /\ r1 = pub_at id A1 ls /\ r5 = pub_at id A5 ls /\ r15 = pub_at id A15 ls /\ m = mean_at id ls.

Lemma untouched id (ls ls' : list mlabel) : (forall l, In l ls' -> touches id l = false) ->
  count_at id (ls ++ ls') = count_at id ls /\ (forall w, pub_at id w (ls ++ ls') = pub_at id w ls) /\ mean_at id (ls ++ ls') = mean_at id ls.
Proof.
  intros H.
  assert (E : marked id ls' = [] /\ (forall w, pubs id w ls' = []) /\ means id ls' = []).
  { induction ls' as [|l r IH]; [auto|]. destruct IH as (I1 & I2 & I3); [intros; apply H; right; auto|]. specialize (H l (or_introl eq_refl)).
    unfold marked, pubs, means in *. cbn [flat_map]. rewrite I1, I3. split; [|split]; [| intro w; rewrite I2 |]; destruct l; cbn in H |- *; rewrite ?H; reflexivity. }
  destruct E as (E1 & E2 & E3). unfold count_at, pub_at, mean_at, marked, pubs, means in *. rewrite !flat_map_app, E1, E3, !app_nil_r.
  split; [reflexivity|]. split; [|reflexivity]. intros w. rewrite flat_map_app, E2, app_nil_r. reflexivity.
Qed.

(** A Snapshot during which nobody marks or ticks the meter shows it at one moment. *)
Theorem C30_snapshot_undisturbed : forall mexp sched pre post t id ls c r1 r5 r15 m,
  snd (mrun mexp sched) = pre ++ ERes t (MSnap c r1 r5 r15 m) :: post -> open_call t pre = Some (MSnapshot id, ls) ->
  (forall before after, pre = before ++ after -> open_call t before = Some (MSnapshot id, []) -> forall l, In l (labels after) -> touches id l = false) ->
  of_one_moment id pre c r1 r5 r15 m.
Proof.
  intros mexp sched pre post t id ls c r1 r5 r15 m E O H. destruct (reads_ok mexp sched pre post t _ _ ls E O) as (c' & a & b & d & m' & R & Sc & S1 & S5 & S15 & Sm).
  inversion R; subst c' a b d m'.
  assert (Q : forall f v, seen t (MSnapshot id) pre f v -> (forall x y, (forall l, In l y -> touches id l = false) -> f (x ++ y) = f x) -> v = f (labels pre)).
  { intros f v (b & a & Ep & Ob & _ & ->) K. rewrite Ep, labels_app. symmetry. apply K. exact (H b a Ep Ob). }
  exists pre, []. split; [now rewrite app_nil_r|]. cbv zeta.
  split; [apply Q; [exact Sc|intros; now apply untouched]|].
  split; [apply Q; [exact S1|intros; now apply untouched]|].
  split; [apply Q; [exact S5|intros; now apply untouched]|].
  split; [apply Q; [exact S15|intros; now apply untouched]|].
  apply Q; [exact Sm|intros; now apply untouched].
Qed.
Print Assumptions C30_snapshot_undisturbed.

(** In general it does not: a Snapshot that read the count before the first Mark and the rates
    after the next tick shows no event and two events per second. *)
Definition torn : list (choice meter_op) :=
  Call 1 MNew :: repeat (Run 1) 5 ++ Call 3 (MSnapshot 0) :: Run 3 :: Call 1 (MMark 0 10) :: repeat (Run 1) 16 ++ Call 2 (MTickAll []) :: repeat (Run 2) 40 ++ repeat (Run 3) 6.
Theorem C30_snapshot_one_moment_refuted :
  ~ (forall mexp sched pre post t id ls c r1 r5 r15 m,
     snd (mrun mexp sched) = pre ++ ERes t (MSnap c r1 r5 r15 m) :: post -> open_call t pre = Some (MSnapshot id, ls) -> of_one_moment id pre c r1 r5 r15 m).
Proof.
  intros H. pose (tr := snd (mrun ex_exp torn)).
  assert (L : tr = removelast tr ++ [last tr (EInv 0%nat MNew)]) by (apply app_removelast_last; unfold tr; vm_compute; discriminate).
  assert (E : exists r5 r15 m, last tr (EInv 0%nat MNew) = ERes 3 (MSnap 0 (float64bits (f_of_int 2)) r5 r15 m)) by (do 3 eexists; unfold tr; vm_compute; reflexivity).
  destruct E as (r5 & r15 & m & E). rewrite E in L.
  assert (O : open_call 3 (removelast tr) = Some (MSnapshot 0, [])) by (unfold tr; vm_compute; reflexivity).
  destruct (H ex_exp torn (removelast tr) [] 3%nat 0%nat [] 0 _ r5 r15 m L O) as (b & a & Eb & Hc & H1 & _).
  assert (F : forallb (fun k => negb (Z.eqb (count_at 0 (labels (firstn k (removelast tr)))) 0 && Z.eqb (pub_at 0 A1 (labels (firstn k (removelast tr)))) (float64bits (f_of_int 2)))%bool)
    (seq 0 (S (length (removelast tr)))) = true) by (unfold tr; vm_compute; reflexivity).
  rewrite forallb_forall in F. specialize (F (length b)). rewrite Eb in F. rewrite firstn_app, firstn_all, Nat.sub_diag, app_nil_r in F.
  rewrite <- Hc, <- H1 in F. assert (X : In (length b) (seq 0 (S (length (b ++ a))))) by (apply in_seq; rewrite app_length; lia).
  apply F in X. rewrite !Z.eqb_refl in X. discriminate X.
Qed.
Print Assumptions C30_snapshot_one_moment_refuted.
(* with nobody else about, the hypotheses of [C30_snapshot_undisturbed] hold: ten events, two per second *)
Definition calm : list (choice meter_op) := ex30 ++ Call 3 (MSnapshot 0) :: repeat (Run 3) 6.
Example C30_snapshot_example : exists pre r5 r15 m, snd (mrun ex_exp calm) = pre ++ [ERes 3 (MSnap 10 (float64bits (f_of_int 2)) r5 r15 m)] /\
  open_call 3 pre = Some (MSnapshot 0, []) /\
  (forall before after, pre = before ++ after -> open_call 3 before = Some (MSnapshot 0, []) -> forall l, In l (labels after) -> touches 0 l = false).
Proof.
  pose (tr := snd (mrun ex_exp calm)). exists (removelast tr).
  assert (E : exists r5 r15 m, last tr (EInv 0%nat MNew) = ERes 3 (MSnap 10 (float64bits (f_of_int 2)) r5 r15 m)) by (do 3 eexists; unfold tr; vm_compute; reflexivity).
  destruct E as (r5 & r15 & m & E). exists r5, r15, m. rewrite <- E. split; [apply app_removelast_last; unfold tr; vm_compute; discriminate|].
  split; [unfold tr; vm_compute; reflexivity|]. intros b a Eb Ob l I.
  assert (F : forallb (fun k => match open_call 3 (firstn k (removelast tr)) with Some (MSnapshot _, []) => forallb (fun l => negb (touches 0 l)) (labels (skipn k (removelast tr))) | _ => true end)
    (seq 0 (S (length (removelast tr)))) = true) by (unfold tr; vm_compute; reflexivity).
  rewrite forallb_forall in F. specialize (F (length b)). rewrite Eb in F. rewrite firstn_app, firstn_all, Nat.sub_diag, app_nil_r, skipn_app, skipn_all, Nat.sub_diag in F.
  cbn [app skipn] in F. rewrite Ob in F. assert (X : In (length b) (seq 0 (S (length (b ++ a))))) by (apply in_seq; rewrite app_length; lia).
  apply F in X. rewrite forallb_forall in X. apply X in I. now destruct (touches 0 l).
Qed.
