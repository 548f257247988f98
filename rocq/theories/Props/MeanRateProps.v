(** Property C78: what the mean rate of a meter is. *)
From Coq Require Import ZArith List Reals Lra Lia Bool.
From Flocq Require Import Core.
From Verif.Model Require Import GoInt GoFloat GoBase ExpDecay Conc Ewma World.
From Verif.Spec Require Import EwmaSpec RegistrySpec MeterHistorySpec.
From Verif.Proofs Require Import IntFacts FloatFacts VarianceProofs WorldBase WorldStep.
From Verif.Props Require Import SnapshotProps ReportProps MeterHistoryProps.
Import ListNotations.
Open Scope R_scope.

(** ** one rounding each *)
Lemma rnd_between x k : 0 <= x -> (-1022 <= k)%Z -> x = 0 \/ bpow radix2 k <= x -> (1 - u) * x <= rnd x <= (1 + u) * x.
Proof.
  intros P K C. destruct (coarse_rel k x K) as (e & B & E); [destruct C as [C|C]; [now left|right; now rewrite Rabs_pos_eq]|].
  exact (rel_between _ _ e B P E).
Qed.
Lemma seconds_rel d : (0 < d <= max_int64)%Z -> fis_finite (seconds d) = true /\
  (1 - u) * ((1 - u) * (IZR d / 1000000000)) <= f2r (seconds d) <= (1 + u) * ((1 + u) * (IZR d / 1000000000)).
Proof.
  intros [D1 D2]. unfold max_int64 in D2. set (s := Z.quot d 1000000000). set (n := Z.rem d 1000000000).
  assert (Q : d = (1000000000 * s + n)%Z) by (apply Z.quot_rem'). assert (Hn : (0 <= n < 1000000000)%Z) by (apply Z.rem_bound_pos; lia).
  assert (Hs : (0 <= s < 2 ^ 34)%Z) by lia. assert (R0 : (0 < s \/ 0 < n)%Z) by lia. unfold seconds. fold s n. clearbody s n.
  assert (Es : f2r (f_of_int s) = IZR s) by (apply f_of_int_exact; lia). assert (En : f2r (f_of_int n) = IZR n) by (apply f_of_int_exact; lia).
  assert (Eb : f2r (f_of_int 1000000000) = 1000000000) by (apply (f_of_int_exact 1000000000); lia).
  assert (Ps : 0 <= IZR s <= 17179869184) by (split; apply IZR_le; lia). assert (Pn : 0 <= IZR n <= 1000000000) by (split; apply IZR_le; lia).
  pose proof u_small as U.
  assert (Bq : 0 <= IZR n / 1000000000 <= 1) by lra.
  destruct (fdiv_correct (f_of_int n) (f_of_int 1000000000) (f_of_int_finite n ltac:(lia)) 0) as [Eq Fq]; [lia|rewrite Eb; lra|rewrite En, Eb, Rabs_pos_eq by lra; change (bpow radix2 0) with 1; lra|].
  rewrite En, Eb in Eq. set (q := fdiv (f_of_int n) (f_of_int 1000000000)) in *. clearbody q.
  assert (K30 : bpow radix2 (-30) <= / 1000000000). { change (bpow radix2 (-30)) with (/ 1073741824). apply Rinv_le; lra. }
  assert (Cn : IZR n / 1000000000 = 0 \/ bpow radix2 (-30) <= IZR n / 1000000000).
  { destruct (Z.eq_dec n 0) as [->|N0]; [left; lra|right]. assert (1 <= IZR n) by (apply IZR_le; lia). lra. }
  pose proof (rnd_between _ (-30) (proj1 Bq) ltac:(lia) Cn) as Rq. rewrite <- Eq in Rq.
  assert (Rh : IZR n / 1000000000 / 2 <= f2r q <= 2) by nra.
  assert (Bs : 0 <= IZR s + f2r q <= bpow radix2 36). { change (bpow radix2 36) with 68719476736. lra. }
  destruct (fadd_correct (f_of_int s) q (f_of_int_finite s ltac:(lia)) Fq 36) as [Ea Fa]; [lia|rewrite Es, Rabs_pos_eq; lra|]. rewrite Es in Ea.
  split; [exact Fa|]. rewrite Ea. 
  assert (Ca : IZR s + f2r q = 0 \/ bpow radix2 (-31) <= IZR s + f2r q).
  { right. assert (E31 : bpow radix2 (-30) = 2 * bpow radix2 (-31)) by (change (-30)%Z with (1 + -31)%Z; rewrite bpow_plus; reflexivity). assert (bpow radix2 (-31) <= 1) by (change 1 with (bpow radix2 0); apply bpow_le; lia).
    destruct R0 as [R0|R0].
    - assert (1 <= IZR s) by (apply IZR_le; lia). lra.
    - assert (1 <= IZR n) by (apply IZR_le; lia). destruct Cn as [Cn|Cn]; lra. }
  pose proof (rnd_between _ (-31) (proj1 Bs) ltac:(lia) Ca) as Ra.
  assert (X : IZR d / 1000000000 = IZR s + IZR n / 1000000000) by (rewrite Q, plus_IZR, mult_IZR; lra). rewrite X.
  set (y := IZR n / 1000000000) in *. clearbody y.
  assert (G1 : (1 - u) * (IZR s + y) <= IZR s + f2r q) by nra. assert (G2 : IZR s + f2r q <= (1 + u) * (IZR s + y)) by nra. split.
  - eapply Rle_trans; [|exact (proj1 Ra)]. apply Rmult_le_compat_l; lra.
  - eapply Rle_trans; [exact (proj2 Ra)|]. apply Rmult_le_compat_l; lra.
Qed.
Lemma ratio_bounds c x s a r : 0 <= c -> 0 < x -> (1 - u) * ((1 - u) * x) <= s <= (1 + u) * ((1 + u) * x) ->
  (1 - u) * c <= a <= (1 + u) * c -> (1 - u) * (a / s) <= r <= (1 + u) * (a / s) -> Rabs (r - c / x) <= 8 * u * (c / x).
Proof.
  intros Pc Px S A R. assert (U : 0 < u < / 1024). { split; [apply bpow_gt_0|]. change (/ 1024) with (bpow radix2 (-10)). apply bpow_lt. lia. }
  set (v := u) in *. clearbody v. assert (Ps : 0 < s) by nra.
  assert (I1 : / s <= / ((1 - v) * ((1 - v) * x))) by (apply Rinv_le; nra).
  assert (I2 : / ((1 + v) * ((1 + v) * x)) <= / s) by (apply Rinv_le; nra).
  assert (Ix : 0 < / x) by now apply Rinv_0_lt_compat. unfold Rdiv in *. set (z := c * / x). assert (Pz : 0 <= z) by (unfold z; nra).
  assert (J1 : / ((1 - v) * ((1 - v) * x)) <= (1 + 3 * v) * / x).
  { rewrite !Rinv_mult. rewrite <- Rmult_assoc. apply Rmult_le_compat_r; [lra|]. rewrite <- Rinv_mult.
    apply Rmult_le_reg_l with ((1 - v) * (1 - v)); [nra|]. rewrite Rinv_r by nra. nra. }
  assert (J2 : (1 - 3 * v) * / x <= / ((1 + v) * ((1 + v) * x))).
  { rewrite !Rinv_mult. rewrite <- Rmult_assoc. apply Rmult_le_compat_r; [lra|]. rewrite <- Rinv_mult.
    apply Rmult_le_reg_l with ((1 + v) * (1 + v)); [nra|]. rewrite Rinv_r by nra. nra. }
  assert (Pi : 0 < / s) by now apply Rinv_0_lt_compat.
  assert (H1 : a * / s <= ((1 + v) * c) * ((1 + 3 * v) * / x)) by (apply Rmult_le_compat; nra).
  assert (H2 : ((1 - v) * c) * ((1 - 3 * v) * / x) <= a * / s) by (apply Rmult_le_compat; nra).
  replace ((1 + v) * c * ((1 + 3 * v) * / x)) with ((1 + v) * (1 + 3 * v) * z) in H1 by (unfold z; ring).
  replace ((1 - v) * c * ((1 - 3 * v) * / x)) with ((1 - v) * (1 - 3 * v) * z) in H2 by (unfold z; ring).
  set (w := a * / s) in *. clearbody w z. clear -R H1 H2 U Pz.
  assert (T1 : r <= (1 + v) * ((1 + v) * (1 + 3 * v) * z)) by nra.
  assert (T2 : (1 - v) * ((1 - v) * (1 - 3 * v) * z) <= r) by nra.
  assert (K1 : (1 + v) * ((1 + v) * (1 + 3 * v)) <= 1 + 8 * v) by nra.
  assert (K2 : 1 - 8 * v <= (1 - v) * ((1 - v) * (1 - 3 * v))) by nra.
  apply Rabs_le. split; nra.
Qed.
Lemma mean_accuracy c d : is_int64 c -> (0 < d <= max_int64)%Z ->
  let v := fdiv (f_of_int c) (seconds d) in fis_finite v = true /\ Rabs (f2r v - IZR c / (IZR d / 1000000000)) <= bpow radix2 (-50) * Rabs (IZR c / (IZR d / 1000000000)).
Proof.
  intros Hc Hd v. unfold is_int64, min_int64, max_int64 in Hc. destruct (seconds_rel d Hd) as [Fs Rs]. assert (Pd : 1 <= IZR d <= 9223372036854775808) by (unfold max_int64 in Hd; split; apply IZR_le; lia).
  set (x := IZR d / 1000000000) in *. assert (Px : / 1000000000 <= x <= 9223372037) by (unfold x; lra).
  pose proof u_small as U. assert (U' : u < / 1024) by (change (/ 1024) with (bpow radix2 (-10)); apply bpow_lt; lia).
  assert (Ps : / 4000000000 <= f2r (seconds d) <= 40000000000) by nra.
  destruct (f_of_int_correct c ltac:(lia)) as [Ec Fc].
  assert (Bc : Rabs (f2r (f_of_int c)) <= bpow radix2 63). { rewrite Ec. apply Rabs_rnd_le; [lia|]. rewrite <- abs_IZR. change (bpow radix2 63) with (IZR (2 ^ 63)). apply IZR_le. lia. }
  assert (Pi : 0 < / f2r (seconds d) <= 4000000000). { split; [apply Rinv_0_lt_compat; lra|]. rewrite <- (Rinv_inv 4000000000). apply Rinv_le; lra. }
  assert (Bv : Rabs (f2r (f_of_int c) / f2r (seconds d)) <= bpow radix2 95).
  { unfold Rdiv. rewrite Rabs_mult, (Rabs_pos_eq (/ _)) by lra. replace (bpow radix2 95) with (bpow radix2 63 * 4294967296) by (change 95%Z with (63 + 32)%Z; rewrite bpow_plus; reflexivity). apply Rmult_le_compat; try apply Rabs_pos; lra. }
  destruct (fdiv_correct (f_of_int c) (seconds d) Fc 95) as [Ev Fv]; [lia|lra|exact Bv|]. fold v in Ev, Fv. split; [exact Fv|].
  assert (E50 : bpow radix2 (-50) = 8 * u) by (change (-50)%Z with (3 + -53)%Z; rewrite bpow_plus; reflexivity). rewrite E50.
  (* without the sign *)
  assert (Pos : forall k, (0 <= k <= 2 ^ 63)%Z -> Rabs (rnd (rnd (IZR k) / f2r (seconds d)) - IZR k / x) <= 8 * u * (IZR k / x)).
  { intros k Hk. assert (Pk : 0 <= IZR k) by (apply IZR_le; lia). assert (Ck : IZR k = 0 \/ bpow radix2 0 <= IZR k). { destruct (Z.eq_dec k 0) as [->|N]; [now left|right]. change (bpow radix2 0) with (IZR 1). apply IZR_le. lia. }
    pose proof (rnd_between _ 0 Pk ltac:(lia) Ck) as Rk. apply (ratio_bounds (IZR k) x (f2r (seconds d)) (rnd (IZR k))); auto; try lra.
    apply (rnd_between _ (-40)); [apply Rmult_le_pos; [nra|lra]|lia|].
    destruct Ck as [Ck|Ck]; [left; rewrite Ck, rnd_0; unfold Rdiv; ring|right]. change (bpow radix2 0) with 1 in Ck.
    assert (1 <= rnd (IZR k)) by (apply rnd_ge_fmt; [change 1 with (bpow radix2 0); apply fmt_bpow; lia|exact Ck]).
    assert (K : / 40000000000 <= / f2r (seconds d)) by (apply Rinv_le; lra). change (bpow radix2 (-40)) with (/ 1099511627776). unfold Rdiv. assert (/ 1099511627776 <= / 40000000000) by (apply Rinv_le; lra). nra. }
  rewrite Ev, Ec. assert (Pix : 0 < / x) by (apply Rinv_0_lt_compat; lra). destruct (Z_le_gt_dec 0 c) as [S|S].
  - assert (0 <= IZR c) by (apply IZR_le; lia). rewrite (Rabs_pos_eq (IZR c / x)) by (unfold Rdiv; nra). apply Pos. lia.
  - specialize (Pos (- c)%Z ltac:(lia)). rewrite opp_IZR in Pos. rewrite rnd_opp in Pos. unfold Rdiv in *. rewrite !Ropp_mult_distr_l_reverse, rnd_opp in Pos.
    assert (IZR c <= 0) by (apply IZR_le; lia). rewrite (Rabs_left1 (IZR c * / x)) by nra.
    rewrite <- Rabs_Ropp. replace (- (rnd (rnd (IZR c) * / f2r (seconds d)) - IZR c * / x)) with (- rnd (rnd (IZR c) * / f2r (seconds d)) - - (IZR c * / x)) by ring. exact Pos.
Qed.

Lemma over_zero c : is_int64 c -> fdiv (f_of_int c) (seconds 0) = if (c =? 0)%Z then f_nan else f_inf (c <? 0)%Z.
Proof.
  intros Hc. unfold is_int64, min_int64, max_int64 in Hc. assert (S0 : seconds 0 = f_zero) by (apply f64_eq_bits; vm_compute; reflexivity). rewrite S0.
  destruct (Z.eqb_spec c 0) as [->|N]; [apply f64_eq_bits; vm_compute; reflexivity|].
  destruct (f_of_int_correct c ltac:(lia)) as [E F].
  assert (Sg : (0 < c)%Z /\ 1 <= f2r (f_of_int c) \/ (c < 0)%Z /\ f2r (f_of_int c) <= -1).
  { rewrite E. assert (F1 : fmt64 1) by (change 1 with (bpow radix2 0); apply fmt_bpow; lia). destruct (Z_lt_le_dec 0 c) as [P|P]; [left|right]; (split; [lia|]).
    - apply rnd_ge_fmt; [exact F1|]. apply IZR_le. lia.
    - apply rnd_le_fmt; [apply fmt_opp; exact F1|]. apply IZR_le. lia. }
  unfold f_zero, f_inf. destruct (f_of_int c) as [s|s|s pl e|s m e H]; try discriminate; cbn in Sg; [lra|].
  replace (c <? 0)%Z with s; [destruct s; reflexivity|]. destruct s; cbn in Sg; symmetry; [apply Z.ltb_lt|apply Z.ltb_ge].
  - destruct Sg as [(P & Q)|(P & Q)]; [|exact P]. exfalso. assert (F2R (Float radix2 (Z.neg m) e) <= 0) by (apply F2R_le_0; cbn; lia). lra.
  - destruct Sg as [(P & Q)|(P & Q)]; [lia|]. exfalso. assert (0 <= F2R (Float radix2 (Z.pos m) e)) by (apply F2R_ge_0; cbn; lia). lra.
Qed.

Lemma mean_rate_last t0 es e : is_int64 (tally (es ++ [e])) -> mean_rate t0 (es ++ [e]) = fdiv (f_of_int (tally (es ++ [e]))) (seconds (time_sub (at_time e) t0)).
Proof.
  intros Hn. unfold mean_rate. assert (La : forall a r, (es ++ [e])%list = a :: r -> last r a = e).
  { intros a r Q. assert (last (a :: r) a = e) as Z by (rewrite <- Q; apply last_last). destruct r; exact Z. }
  destruct (es ++ [e])%list as [|a r] eqn:Q; [destruct es; discriminate|]. rewrite (La a r eq_refl). now rewrite wrap64_id.
Qed.

(** ** A meter of a program: [c] makes it, [q] is what the program does until it is read *)
(** The mean rate is the number of events divided by the seconds between when the meter was made
    and the last event or tick, right to within 2^-50 of its value. *)
Theorem C78_mean_rate : forall mexp p c o v k q x w o', let st := reach mexp p in let st1 := fst (step mexp st (c, o)) in let st2 := run mexp st1 q in
  snd (step mexp st (c, o)) = Some (Ok (RVal v)) -> (length (heap (fst st)) <= k)%nat -> meter_of (fst st1) v = Some k ->
  nth_error (snd st2) x = Some w -> meter_of (fst st2) w = Some k ->
  forall es e, happened mexp k st1 q = (es ++ [e])%list -> let n := tally (es ++ [e]) in let d := (at_time e - o_now o)%Z in
  is_int64 n -> (0 < d <= max_int64)%Z ->
  exists r, snd (step mexp st2 (OMRate x RKMean, o')) = Some (Ok (RF r)) /\ fis_finite r = true /\
    Rabs (f2r r - IZR n / (IZR d / 1000000000)) <= bpow radix2 (-50) * Rabs (IZR n / (IZR d / 1000000000)).
Proof.
  intros mexp p c o v k q x w o' st st1 st2 R L M X W es e H n d Hn Hd. exists (mean_rate (o_now o) (es ++ [e])). split.
  - pose proof (C69_rates mexp p c o v k q x w RKMean o' R L M X W) as Y. fold st st1 st2 in Y. rewrite H in Y. exact Y.
  - assert (E : mean_rate (o_now o) (es ++ [e]) = fdiv (f_of_int n) (seconds d)).
    { rewrite mean_rate_last by exact Hn. unfold n, d.
      unfold time_sub. replace (Z.max min_int64 (Z.min max_int64 (at_time e - o_now o))) with (at_time e - o_now o)%Z; [reflexivity|]. unfold d in Hd. unfold min_int64, max_int64 in *. lia. }
    rewrite E. exact (mean_accuracy n d Hn Hd).
Qed.
Print Assumptions C78_mean_rate.

(** Before the first event and the first tick it is 0. *)
Theorem C78_first : forall mexp p c o v k q x w o', let st := reach mexp p in let st1 := fst (step mexp st (c, o)) in let st2 := run mexp st1 q in
  snd (step mexp st (c, o)) = Some (Ok (RVal v)) -> (length (heap (fst st)) <= k)%nat -> meter_of (fst st1) v = Some k ->
  nth_error (snd st2) x = Some w -> meter_of (fst st2) w = Some k -> happened mexp k st1 q = [] ->
  snd (step mexp st2 (OMRate x RKMean, o')) = Some (Ok (RF f_zero)).
Proof.
  intros mexp p c o v k q x w o' st st1 st2 R L M X W H. pose proof (C69_rates mexp p c o v k q x w RKMean o' R L M X W) as Y. fold st st1 st2 in Y. rewrite H in Y. exact Y.
Qed.
Print Assumptions C78_first.

(** When the clock shows the same time as when the meter was made, the mean rate of n events is
    n divided by 0. *)
Theorem C78_at_once : forall mexp p c o v k q x w o', let st := reach mexp p in let st1 := fst (step mexp st (c, o)) in let st2 := run mexp st1 q in
  snd (step mexp st (c, o)) = Some (Ok (RVal v)) -> (length (heap (fst st)) <= k)%nat -> meter_of (fst st1) v = Some k ->
  nth_error (snd st2) x = Some w -> meter_of (fst st2) w = Some k ->
  forall es e, happened mexp k st1 q = (es ++ [e])%list -> at_time e = o_now o -> let n := tally (es ++ [e]) in is_int64 n ->
  exists r, snd (step mexp st2 (OMRate x RKMean, o')) = Some (Ok (RF r)) /\
    r = (if (n =? 0)%Z then f_nan else f_inf (n <? 0)%Z).
Proof.
  intros mexp p c o v k q x w o' st st1 st2 R L M X W es e H T n Hn. exists (mean_rate (o_now o) (es ++ [e])). split.
  - pose proof (C69_rates mexp p c o v k q x w RKMean o' R L M X W) as Y. fold st st1 st2 in Y. rewrite H in Y. exact Y.
  - rewrite mean_rate_last by exact Hn. rewrite T. unfold time_sub. rewrite Z.sub_diag. exact (over_zero n Hn).
Qed.
Print Assumptions C78_at_once.

(** ** What it is not *)
(** Finite: a meter marked within the same nanosecond (or within the resolution of the clock) shows
    an infinite mean rate, one ticked then without events a NaN. *)
Theorem C78_finite_refuted : ~ forall mexp p c o v k q x w o', let st := reach mexp p in let st1 := fst (step mexp st (c, o)) in let st2 := run mexp st1 q in
  snd (step mexp st (c, o)) = Some (Ok (RVal v)) -> (length (heap (fst st)) <= k)%nat -> meter_of (fst st1) v = Some k ->
  nth_error (snd st2) x = Some w -> meter_of (fst st2) w = Some k ->
  forall r, snd (step mexp st2 (OMRate x RKMean, o')) = Some (Ok (RF r)) -> fis_finite r = true.
Proof.
  intros H. specialize (H one_plus [] (ONew NMeter) (second 3) (VMeter 6) 6%nat [(OMark 1 10, second 3)] 1%nat (VMeter 6) (second 3)). cbv zeta in H.
  assert (D : fis_finite (f_inf false) = true); [|discriminate D]. apply H; [vm_compute; reflexivity|apply Nat.leb_le; vm_compute; reflexivity|vm_compute; reflexivity..].
Qed.
Print Assumptions C78_finite_refuted.

(** Up to date: it does not fall while nothing happens, but at the next event or tick.  Ten events
    in the first second; three seconds later the mean rate is still 10 per second. *)
Theorem C78_current_refuted : ~ forall mexp p c o v k q x w o', let st := reach mexp p in let st1 := fst (step mexp st (c, o)) in let st2 := run mexp st1 q in
  snd (step mexp st (c, o)) = Some (Ok (RVal v)) -> (length (heap (fst st)) <= k)%nat -> meter_of (fst st1) v = Some k ->
  nth_error (snd st2) x = Some w -> meter_of (fst st2) w = Some k ->
  let n := tally (happened mexp k st1 q) in let d := (o_now o' - o_now o)%Z in
  is_int64 n -> (0 < d <= max_int64)%Z -> Forall (fun e => at_time e <= o_now o')%Z (happened mexp k st1 q) ->
  forall r, snd (step mexp st2 (OMRate x RKMean, o')) = Some (Ok (RF r)) -> Rabs (f2r r - IZR n / (IZR d / 1000000000)) <= bpow radix2 (-50) * Rabs (IZR n / (IZR d / 1000000000)).
Proof.
  intros H. specialize (H one_plus [] (ONew NMeter) (second 0) (VMeter 6) 6%nat [(OMark 1 10, second 1)] 1%nat (VMeter 6) (second 4)). cbv zeta in H.
  assert (Ha : happened one_plus 6 (fst (step one_plus (reach one_plus []) (ONew NMeter, second 0))) [(OMark 1 10, second 1)] = [EMark 10 1000000000]) by (vm_compute; reflexivity).
  rewrite Ha in H. change (tally [EMark 10 1000000000]) with 10%Z in H. change (o_now (second 4) - o_now (second 0))%Z with 4000000000%Z in H.
  assert (X : Rabs (f2r (f_of_int 10) - 10 / (4000000000 / 1000000000)) <= bpow radix2 (-50) * Rabs (10 / (4000000000 / 1000000000))).
  { apply H.
    - vm_compute; reflexivity.
    - apply Nat.leb_le. vm_compute. reflexivity.
    - vm_compute; reflexivity.
    - vm_compute; reflexivity.
    - vm_compute; reflexivity.
    - unfold is_int64, min_int64, max_int64. lia.
    - unfold max_int64. lia.
    - constructor; [vm_compute; discriminate|constructor].
    - rewrite (C69_rates one_plus [] (ONew NMeter) (second 0) (VMeter 6) 6 [(OMark 1 10, second 1)] 1 (VMeter 6) RKMean (second 4)); [|vm_compute; reflexivity|apply Nat.leb_le; vm_compute; reflexivity|vm_compute; reflexivity|vm_compute; reflexivity|vm_compute; reflexivity].
      rewrite Ha. do 3 f_equal. apply f64_eq_bits. vm_compute. reflexivity. }
  clear H Ha. rewrite (f_of_int_exact 10) in X by lia. assert (P : bpow radix2 (-50) <= 1) by (change 1 with (bpow radix2 0); apply bpow_le; lia).
  replace (10 / (4000000000 / 1000000000)) with 2.5 in X by lra. rewrite !Rabs_pos_eq in X by lra. lra.
Qed.
Print Assumptions C78_current_refuted.

(** ** Concrete cases: the meter of C69 (31 events until the tick at 10 s, then Stop), and one
    marked in the nanosecond it is made in *)
Example C78_example : let st := reach one_plus [] in let st1 := fst (step one_plus st (ONew NMeter, second 0)) in let es := happened one_plus 6 st1 meter_story in
  es = (removelast es ++ [ETick 10000000000])%list /\ tally es = 31%Z /\ is_int64 31 /\ (0 < 10000000000 - o_now (second 0) <= max_int64)%Z.
Proof. cbv zeta. split; [vm_compute; reflexivity|]. split; [vm_compute; reflexivity|]. split; [unfold is_int64, min_int64, max_int64; lia|]. cbn. unfold max_int64. lia. Qed.
Example C78_at_once_example : let st := reach one_plus [] in let st1 := fst (step one_plus st (ONew NMeter, second 3)) in
  happened one_plus 6 st1 [(OMark 1 10, second 3)] = [EMark 10 3000000000] /\ o_now (second 3) = 3000000000%Z /\
  happened one_plus 6 st1 [(ORound, second 3)] = [ETick 3000000000] /\ happened one_plus 6 st1 [(OMark 1 (-2), second 3)] = [EMark (-2) 3000000000].
Proof. cbv zeta. repeat split; vm_compute; reflexivity. Qed.
