(** Property C69: what meters and averages show, in any program. *)
From Coq Require Import ZArith List String Bool Lia Arith Reals.
From Flocq Require Import Core.
From Verif.Model Require Import GoInt GoFloat GoBase ExpDecay Conc Ewma Meter World.
From Verif.Spec Require Import EwmaSpec RegistrySpec MeterHistorySpec.
From Verif.Proofs Require Import FloatFacts WorldBase WorldStep WorldFrame MeterHistory.
From Verif.Props Require Import SnapshotProps StopProps ReportProps EwmaProps.
Import ListNotations.
Local Open Scope nat_scope.
Local Open Scope list_scope.

Lemma reach_own mexp p : own_averages (reach mexp p).
Proof. unfold reach. exact (own_run mexp p state_init inv_init own_init). Qed.
Lemma after_program mexp (st : state) c o v k q : inv st -> own_averages st -> snd (step mexp st (c, o)) = Some (Ok (RVal v)) -> List.length (heap (fst st)) <= k ->
  meter_of (fst (fst (step mexp st (c, o)))) v = Some k ->
  exists s, k = s + 4 /\ minv mexp k s (o_now o) (run mexp (fst (step mexp st (c, o))) q) (happened mexp k (fst (step mexp st (c, o))) q).
Proof.
  intros I P R L M. destruct (created mexp st c o v k I P R L M) as (s & E & Mi & _). exists s. split; auto. exact (minv_run mexp k s (o_now o) E q _ [] Mi).
Qed.

(** A call returned a new meter [k], or a timer with one (by NewMeter, NewTimer,
    GetOrRegisterMeter and so on), and then any program ran.  Every reference to the meter
    and every timer that has it, by whatever way the program got them, shows the rates that
    follow from the events and ticks there were. *)
Theorem C69_rates : forall mexp p c o v k q x u r o', let st := reach mexp p in let st1 := fst (step mexp st (c, o)) in let st2 := run mexp st1 q in
  snd (step mexp st (c, o)) = Some (Ok (RVal v)) -> List.length (heap (fst st)) <= k -> meter_of (fst st1) v = Some k ->
  nth_error (snd st2) x = Some u -> meter_of (fst st2) u = Some k ->
  snd (step mexp st2 (OMRate x r, o')) = Some (Ok (RF (shown mexp (o_now o) (happened mexp k st1 q) r))).
Proof.
  intros mexp p c o v k q x u r o' st. assert (I : inv st) by exact (reach_inv mexp p). assert (P : own_averages st) by exact (reach_own mexp p). clearbody st. intros st1 st2 R L M X U.
  destruct (after_program mexp st c o v k q I P R L M) as (s & E & Mi). fold st1 in Mi. fold st2 in Mi. destruct (mi_k _ _ _ _ _ _ Mi) as (stp & K). destruct (mi_parts _ _ _ _ _ _ Mi) as (S & _).
  rewrite (mrate_of mexp st2 x u k s _ _ _ _ _ _ r o' X U K S). unfold published. destruct r; cbn [rate_bits s_r1 s_r5 s_r15 s_mean]; now rewrite frombits_bits.
Qed.
Print Assumptions C69_rates.

(** the count, modulo 2^64 *)
Theorem C69_count : forall mexp p c o v k q x o', let st := reach mexp p in let st1 := fst (step mexp st (c, o)) in let st2 := run mexp st1 q in
  snd (step mexp st (c, o)) = Some (Ok (RVal v)) -> List.length (heap (fst st)) <= k -> meter_of (fst st1) v = Some k ->
  nth_error (snd st2) x = Some (VMeter k) ->
  snd (step mexp st2 (OCount x, o')) = Some (Ok (RZ (wrap64 (tally (happened mexp k st1 q))))).
Proof.
  intros mexp p c o v k q x o' st. assert (I : inv st) by exact (reach_inv mexp p). assert (P : own_averages st) by exact (reach_own mexp p). clearbody st. intros st1 st2 R L M X.
  destruct (after_program mexp st c o v k q I P R L M) as (s & E & Mi). fold st1 in Mi. fold st2 in Mi. destruct (mi_k _ _ _ _ _ _ Mi) as (stp & K). destruct (mi_parts _ _ _ _ _ _ Mi) as (S & _).
  rewrite (mcount_of mexp st2 x k s _ _ _ _ _ _ o' X K S). reflexivity.
Qed.
Print Assumptions C69_count.

(** the meter runs at first; it is stopped by the calls C36 names *)
Theorem C69_running : forall mexp p c o v k, let st := reach mexp p in let st1 := fst (step mexp st (c, o)) in
  snd (step mexp st (c, o)) = Some (Ok (RVal v)) -> List.length (heap (fst st)) <= k -> meter_of (fst st1) v = Some k -> In k (alive (fst st1)).
Proof.
  intros mexp p c o v k st. assert (I : inv st) by exact (reach_inv mexp p). assert (P : own_averages st) by exact (reach_own mexp p). clearbody st. intros st1 R L M.
  destruct (created mexp st c o v k I P R L M) as (s & _ & _ & A). exact A.
Qed.
Print Assumptions C69_running.

(** an average made by NewEWMA shows what follows from its own updates and ticks, whatever
    else the program does *)
Theorem C69_average : forall mexp p a o l q x o', let st := reach mexp p in let st1 := fst (step mexp st (ONew (NEwma a), o)) in let st2 := run mexp st1 q in
  snd (step mexp st (ONew (NEwma a), o)) = Some (Ok (RVal (VEwma l))) -> nth_error (snd st2) x = Some (VEwma l) ->
  snd (step mexp st2 (ORate x, o')) = Some (Ok (RF (per_second a (averaged mexp l st1 q)))).
Proof.
  intros mexp p a o l q x o' st. assert (I : inv st) by exact (reach_inv mexp p). assert (P : own_averages st) by exact (reach_own mexp p). clearbody st. intros st1 st2 R X.
  assert (A : ainv l a st1 []).
  { constructor; [apply step_inv; auto|apply own_step; auto| |].
    - unfold st1. rewrite env_step, R. apply in_app_iff. right. now left.
    - revert R. unfold st1, World.step. cbn [fst snd World.call ctor_of]. unfold obind. unfold v_rv, construct, new_ewma, unless_nil, bind, gets, alloc, ret. destruct (usenil (fst st)); cbn [fst snd]; [discriminate|]. intros Y. inversion Y; subst. cbn [heap set_heap]. apply TimerPrivate.nth_snoc. }
  pose proof (ainv_run mexp l a q st1 [] A) as A2. fold st2 in A2. cbn [app] in A2. unfold World.step. cbn [fst snd World.call]. unfold obind, World.only. rewrite X. cbn [cls class_eqb]. unfold f_rv, bind.
  rewrite (do_rate _ _ _ _ _ (ai_at _ _ _ _ A2)). reflexivity.
Qed.
Print Assumptions C69_average.

(** in exact arithmetic these are the exponentially weighted averages of the events per tick,
    up to rounding *)
Theorem C69_accuracy : forall mexp t0 es m r B, In (m, r) [(1, RK1); (5, RK5); (15, RK15)]%Z ->
  let alpha := minutes mexp m in let counts := tick_counts (map as_ewma es) in
  unit_alpha alpha -> (1 <= B < 2 ^ 63)%Z -> counts_upto B counts ->
  let e := Rabs (f2r (shown mexp t0 es r) - 1000000000 * ideal_average (f2r alpha) counts) in
  (e <= (INR (List.length counts) + 1) * (bpow radix2 (-49) * (IZR B / 5)))%R /\
  (f2r alpha * e <= 2 * (bpow radix2 (-49) * (IZR B / 5)))%R.
Proof.
  intros mexp t0 es m r B H alpha counts U HB C.
  assert (E : shown mexp t0 es r = rate_now (ewma_run (NewEWMA alpha) (map as_ewma es))).
  { destruct (C23_recurrence alpha (map as_ewma es)) as (_ & _ & R & _). unfold rate_now. rewrite R. destruct H as [H|[H|[H|[]]]]; inversion H; subst; reflexivity. }
  rewrite E. exact (C23_accuracy alpha B (map as_ewma es) U HB C).
Qed.
Print Assumptions C69_accuracy.

(** a meter, a timer made with it, and what is left of a stopped one: 11 events in the first
    tick, 20 in the second, none after Stop; with 1+x for math.Exp the weights are 1/12m *)
Definition one_plus (x : f64) : f64 := fadd (f_of_int 1) x.
Definition second (n : Z) : orc := orc_at (n * 10 ^ 9)%Z.
Definition meter_story : list (op * orc) :=
  [(ONew (NUniform 4), second 0); (ONew (NHist 2), second 0); (ONew (NCustomTimer 3 1), second 0);
   (OMark 1 10, second 1); (OUpdate 4 99, second 2); (ORound, second 5); (OMark 1 20, second 6); (ORound, second 10);
   (OStop 4, second 11); (OMark 1 1000, second 12); (ORound, second 15)].

Example C69_example : let st := reach one_plus [] in let st1 := fst (step one_plus st (ONew NMeter, second 0)) in let st2 := run one_plus st1 meter_story in
  snd (step one_plus st (ONew NMeter, second 0)) = Some (Ok (RVal (VMeter 6))) /\ List.length (heap (fst st)) = 2 /\
  nth_error (snd st2) 1 = Some (VMeter 6) /\ option_map (meter_of (fst st2)) (nth_error (snd st2) 4) = Some (Some 6) /\
  happened one_plus 6 st1 meter_story = [EMark 10 1000000000; EMark 1 2000000000; ETick 5000000000; EMark 20 6000000000; ETick 10000000000]%Z.
Proof. cbv zeta. repeat split; vm_compute; reflexivity. Qed.
(** 31 events; 2.2+1.8/12 = 2.35, 2.2+1.8/60 = 2.23, 2.2+1.8/180 = 2.21 and 31/10 = 3.1 per second *)
Example C69_example_shown : let es := [EMark 10 1000000000; EMark 1 2000000000; ETick 5000000000; EMark 20 6000000000; ETick 10000000000]%Z in
  tally es = 31%Z /\ map (fun r => float64bits (shown one_plus 0 es r)) [RK1; RK5; RK15; RKMean] = [4612474148362177741; 4612203932384535511; 4612158896388261806; 4614162998222441677]%Z.
Proof. cbv zeta. split; vm_compute; reflexivity. Qed.
(** an average with weight 1/2, a meter beside it: 10 and then 30 events per tick, which is
    2+(6-2)/2 = 4 per second, here one unit in the last place less *)
Example C69_average_example : let a := fdiv (f_of_int 1) (f_of_int 2) in let st := reach one_plus [] in let st1 := fst (step one_plus st (ONew (NEwma a), second 0)) in
  let q := [(ONew NMeter, second 1); (OUpdate 1 10, second 2); (OMark 2 77, second 2); (OTick 1, second 5); (ORound, second 5); (OUpdate 1 30, second 7); (OTick 1, second 10)]%Z in
  snd (step one_plus st (ONew (NEwma a), second 0)) = Some (Ok (RVal (VEwma 2))) /\ nth_error (snd (run one_plus st1 q)) 1 = Some (VEwma 2) /\
  averaged one_plus 2 st1 q = [WUpdate 10; WTick; WUpdate 30; WTick]%Z /\
  float64bits (per_second a [WUpdate 10; WTick; WUpdate 30; WTick]%Z) = (float64bits (f_of_int 4) - 1)%Z.
Proof. cbv zeta. repeat split; vm_compute; reflexivity. Qed.
